(** IEEE 754 values as real numbers, and exact scores of trees of them. *)
From Coq Require Import List ZArith Reals SpecFloat.
From Verif Require Import Base Num M_IEEE S_Ensemble S_Rounding.
Import ListNotations.
Local Open Scope R_scope.

(** The real number a finite value is. *)
Definition real_of (x : spec_float) : R :=
  match x with S754_finite s m e => (if s then -1 else 1) * IZR (Zpos m) * powerRZ 2 e | _ => 0 end.

(** Weight times value of the leaf reached, in exact arithmetic, tree by tree; their sum, and the
    sum of their magnitudes. *)
Definition ieee_parts (ws : list IEEE32) (ts : list (tree Z IEEE32)) (row : list IEEE32) : list R :=
  map (fun p => real_of (fst p) * real_of (snd (exit_leaf row (snd p)))) (combine ws ts).
Definition ieee_exact ws ts row : R := Rtotal (ieee_parts ws ts row).
Definition ieee_mass ws ts row : R := Rtotal (map Rabs (ieee_parts ws ts row)).
Definition ieee_error ws ts row : R :=
  let n := length ts in ((1 + roundoff) ^ n - 1) * ieee_mass ws ts row + INR n * (1 + roundoff) ^ n * tiny.
