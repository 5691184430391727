(** Rank correlations. *)
From Coq Require Import List ZArith Reals Bool.
From Verif Require Import Base Num S_Ensemble.
Import ListNotations.
Local Open Scope R_scope.

(** Positions i < j. *)
Definition positions (n : nat) : list (nat * nat) := concat (map (fun i => map (pair i) (seq (S i) (n - S i))) (seq 0 n)).
Definition at_ (l : list R) (i : nat) : R := nth i l 0.
(** Number of pairs of rows with a property. *)
Definition howmany (n : nat) (p : nat -> nat -> bool) : R := INR (length (filter (fun q => p (fst q) (snd q)) (positions n))).
(** Rows ordered alike, oppositely, equal in the first only, equal in the second only. *)
Definition concordant (y s : list R) i j : bool := Rltb 0 ((at_ y i - at_ y j) * (at_ s i - at_ s j)).
Definition discordant (y s : list R) i j : bool := Rltb ((at_ y i - at_ y j) * (at_ s i - at_ s j)) 0.
Definition tie_only (y s : list R) i j : bool := Reqb (at_ y i) (at_ y j) && negb (Reqb (at_ s i) (at_ s j)).

(** The formula in the documentation of Kendalltau. *)
Definition tau (y s : list R) : R :=
  let n := length y in
  let P := howmany n (concordant y s) in let Q := howmany n (discordant y s) in
  let T := howmany n (tie_only y s) in let U := howmany n (tie_only s y) in
  (P - Q) / sqrt ((P + Q + T) * (P + Q + U)).

(** All values are equal. *)
Definition flat (l : list R) : Prop := forall i j, (i < length l)%nat -> (j < length l)%nat -> at_ l i = at_ l j.
(** The same order of the rows, ties included; the opposite order. *)
Definition same_order (y s : list R) : Prop := forall i j, (i < length y)%nat -> (j < length y)%nat -> (at_ y i < at_ y j <-> at_ s i < at_ s j).
Definition opposite_order (y s : list R) : Prop := forall i j, (i < length y)%nat -> (j < length y)%nat -> (at_ y i < at_ y j <-> at_ s j < at_ s i).

(** Average rank of position [i]: the mean of the places its value takes in increasing order. *)
Definition below (l : list R) (v : R) : R := INR (length (filter (fun x => Rltb x v) l)).
Definition ties (l : list R) (v : R) : R := INR (length (filter (fun x => Reqb x v) l)).
Definition places (l : list R) (v : R) : list R := map (fun k => below l v + INR k) (seq 1 (length (filter (fun x => Reqb x v) l))).
Definition rank (l : list R) (v : R) : R := Rtotal (places l v) / ties l v.
Definition mean_of (l : list R) : R := Rtotal l / INR (length l).
(** Pearson's correlation. *)
Definition pearson (a b : list R) : R :=
  let c := fun x y : list R => Rtotal (map (fun p => (fst p - mean_of x) * (snd p - mean_of y)) (combine x y)) in
  c a b / sqrt (c a a * c b b).
Definition rho (y s : list R) : R := pearson (map (rank y) y) (map (rank s) s).
(** Without ties: from the differences of the ranks. *)
Definition rho_distinct (y s : list R) : R :=
  let n := INR (length y) in
  1 - 6 * Rtotal (map (fun p => (rank y (fst p) - rank s (snd p)) ^ 2) (combine y s)) / (n * (n ^ 2 - 1)).

(** [f] does not change the comparisons of the values of [l]. *)
Definition keeps_order {N : Num.num} (f : N -> N) (l : list N) : Prop :=
  forall a b, In a l -> In b l -> nltb (f a) (f b) = nltb a b /\ neqb (f a) (f b) = neqb a b.

(** The values that are not NaN. *)
Definition defined {A} (v : list (option A)) : list A := concat (map (fun o => match o with Some a => [a] | None => [] end) v).
