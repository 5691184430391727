(** float32 values as real numbers, and the exact score of an ensemble of float32 trees. *)
From Coq Require Import List ZArith Reals.
From Verif Require Import Base Num M_Float S_Ensemble.
Import ListNotations.

(** IEEE 754 decoding of a bit pattern without its sign bit (the sign is that of [k]), as a
    multiple of 2^-149: exponent field [e], fraction field [m]. *)
Definition decoded (k : Z) : Z :=
  (let e := Z.abs k / 2 ^ 23 in
   let m := Z.abs k mod 2 ^ 23 in
   Z.sgn k * (if e =? 0 then m else (2 ^ 23 + m) * 2 ^ (e - 1)))%Z.
Local Open Scope R_scope.
Definition real32 (k : Z) : R := IZR (decoded k) / 2 ^ 149.
(** The exponent field is below 255: neither infinite nor NaN. *)
Definition in_range (k : Z) : Prop := (Z.abs k < 255 * 2 ^ 23)%Z.
(** The largest float32. *)
Definition max32 : R := (2 ^ 24 - 1) * 2 ^ 104.

(** Half a unit in the last place of 1, and half of the smallest positive value. *)
Definition roundoff : R := / 2 ^ 24.
Definition tiny : R := / 2 ^ 150.

(** [k] is a float32 nearest to [x]. *)
Definition nearest32 (x : R) (k : Z) : Prop := forall j, Rabs (real32 k - x) <= Rabs (real32 j - x).

(** Weight times value of the leaf reached, in exact arithmetic, tree by tree. *)
Definition exact_parts (ws : list F32N) (ts : list (tree Z F32N)) (row : list F32N) : list R :=
  map (fun p => real32 (fst p) * real32 (snd (exit_leaf row (snd p)))) (combine ws ts).
Definition exact_score ws ts row : R := Rtotal (exact_parts ws ts row).
(** Sum of the magnitudes of the parts. *)
Definition mass ws ts row : R := Rtotal (map Rabs (exact_parts ws ts row)).
(** What the roundings can do to the score. *)
Definition score_error ws ts row : R :=
  let n := length ts in ((1 + roundoff) ^ n - 1) * mass ws ts row + INR n * (1 + roundoff) ^ n * tiny.

(** With the learning rate and the base score: exact value, and what the roundings can do. *)
Definition base32 (b : option F32N) : R := match b with Some v => real32 v | None => 0 end.
Definition exact_final (lr : F32N) (b : option F32N) ws ts row : R := real32 lr * exact_score ws ts row + base32 b.
Definition final_error (lr : F32N) (b : option F32N) ws ts row : R :=
  let scaled := (1 + roundoff) * (Rabs (real32 lr) * score_error ws ts row)
                + roundoff * Rabs (real32 lr * exact_score ws ts row) + tiny in
  (1 + roundoff) * scaled + roundoff * Rabs (exact_final lr b ws ts row).
