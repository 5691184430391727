(** Missing values (NaN), infinities and signed zeros in scoring. *)
From Coq Require Import List ZArith Bool SpecFloat.
From Verif Require Import Base Num M_IEEE S_Ensemble.
Import ListNotations.
Local Open Scope Z_scope.

(** The leaf reached when a value is compared with [goes_left] if it is there, and a missing one
    goes left at the nodes where [default_left]: the trees of XGBoost and LightGBM. *)
Fixpoint exit_default {A} (goes_left : IEEE32 -> IEEE32 -> bool) (default_left : A -> bool) (row : list IEEE32) (t : tree A IEEE32) : A * IEEE32 :=
  match t with
  | Leaf a v => (a, v)
  | Node a f thr l r =>
      let x := nth (Z.to_nat f) row nzero in
      if (if is_nan x then default_left a else goes_left x thr) then exit_default goes_left default_left row l
      else exit_default goes_left default_left row r
  end.

Definition nan_to_inf (x : IEEE32) : IEEE32 := if is_nan x then S754_infinity false else x.
Definition infinite (x : IEEE32) : Prop := match x with S754_infinity _ => True | _ => False end.
(** Not NaN, not below zero. *)
Definition nonnegative (x : IEEE32) : Prop :=
  match x with S754_nan => False | S754_zero _ => True | S754_infinity s => s = false | S754_finite s _ _ => s = false end.
(** Some feature is NaN. *)
Definition has_nan (X : list (list IEEE32)) : Prop := exists row, In row X /\ In S754_nan row.
(** Thresholds for which nextafter(t, t - 1) is the next value below: -2^24 < t <= 2^24. *)
Definition moderate (x : IEEE32) : Prop :=
  valid_binary 24 128 x = true /\ nltb (nofZ (- 2 ^ 24)) x = true /\ nleb x (nofZ (2 ^ 24)) = true.
(** The score that a booster of XGBoost gives a row: the sum of the leaves reached. *)
Definition booster_score {A} (default_left : A -> bool) (ts : list (tree A IEEE32)) (row : list IEEE32) : IEEE32 :=
  fold_left (fun y t => nf32 (nadd y (nf32 (nmul (snd (exit_default nltb default_left row t)) none)))) ts nzero.
