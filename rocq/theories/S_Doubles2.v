(** Exact scores of trees of doubles. *)
From Coq Require Import List ZArith Reals SpecFloat.
From Verif Require Import Base Num M_IEEE S_Ensemble S_Rounding S_IEEE S_IEEE2.
Import ListNotations.
Local Open Scope R_scope.

(** Finite, also after the rounding to float32. *)
Definition both_finite (v : spec_float) : Prop := finite_value 53 1024 v /\ finite_value 24 128 (to_float32 v).

(** Weight times value of the leaf reached, in real numbers. *)
Definition double_parts {A} (ws : list IEEE32) (ts : list (tree A IEEE64)) (row : list IEEE64) : list R :=
  map (fun p => real_of (fst p) * real_of (snd (exit_leaf row (snd p)))) (combine ws ts).
Definition double_exact {A} ws (ts : list (tree A IEEE64)) row : R := Rtotal (double_parts ws ts row).
Definition double_mass {A} ws (ts : list (tree A IEEE64)) row : R := Rtotal (map Rabs (double_parts ws ts row)).
Definition total_weight (ws : list IEEE32) : R := Rtotal (map (fun w => Rabs (real_of w)) ws).
(** One rounding for the leaf, one for the product or the sum of each tree. *)
Definition double_error {A} ws (ts : list (tree A IEEE64)) row : R :=
  let n := length ts in
  ((1 + roundoff) ^ (n + 1) - 1) * double_mass ws ts row + (1 + roundoff) ^ n * (total_weight ws + INR n) * tiny.
