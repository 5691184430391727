(** Metrics on scores and labels that are NaN or infinite. *)
From Coq Require Import List ZArith Bool Permutation Sorted SpecFloat.
From Verif Require Import Base Num M_Metrics S_Metrics M_IEEE.
Import ListNotations.

(** Numbers with NaN: comparisons with it answer false, arithmetic gives NaN again, the other
    values are ordered. *)
Record has_nans (N : num) : Prop := {
  hn_compare : forall a b : N, nisnan a = true \/ nisnan b = true -> nleb a b = false /\ neqb a b = false;
  hn_total : forall a b : N, nisnan a = false -> nisnan b = false -> nleb a b = true \/ nleb b a = true;
  hn_trans : forall a b c : N, nleb a b = true -> nleb b c = true -> nleb a c = true;
  hn_arith : forall a b : N, nisnan a = true \/ nisnan b = true ->
    nisnan (nadd a b) = true /\ nisnan (nsub a b) = true /\ nisnan (nmul a b) = true /\ nisnan (ndiv a b) = true;
  hn_fun : forall a : N, nisnan a = true -> nisnan (nexp2 a) = true /\ nisnan (nsqrt a) = true /\ nisnan (nf32 a) = true
}.

(** The order in which NumPy sorts: NaN comes last. *)
Definition np_leb {N : num} (a b : N) : bool := nisnan b || nleb a b.
(** [idx] lists all the positions of [s] in that order. *)
Definition np_sorts {N : num} (s : list N) (idx : list nat) : Prop :=
  Permutation idx (seq 0 (length s)) /\
  StronglySorted (fun i j => forall a b, nth_error s i = Some a -> nth_error s j = Some b -> np_leb a b = true) idx.
(** np.argsort: any sorting algorithm; and one whose answer depends on comparisons only. *)
Definition np_sorting {N : num} (argsort : list N -> list nat) : Prop := forall s, np_sorts s (argsort s).
Definition np_comparing {N : num} (argsort : list N -> list nat) : Prop :=
  forall s s' : list N, length s = length s' ->
    (forall i j a b a' b', nth_error s i = Some a -> nth_error s j = Some b ->
       nth_error s' i = Some a' -> nth_error s' j = Some b' -> np_leb a b = np_leb a' b') ->
    argsort s = argsort s'.
(** A concrete one: insertion sort. *)
Definition np_argsort {N : num} (s : list N) : list nat :=
  map snd (isort (fun p q : N * nat => np_leb (fst p) (fst q)) (combine s (seq 0 (length s)))).

(** The positions of the documents whose score is NaN, and of the others. *)
Definition nan_at {N : num} (s : list N) : list nat :=
  filter (fun i => match nth_error s i with Some v => nisnan v | None => false end) (seq 0 (length s)).
Definition number_at {N : num} (s : list N) : list nat :=
  filter (fun i => match nth_error s i with Some v => negb (nisnan v) | None => false end) (seq 0 (length s)).

(** At least one document is looked at. *)
Definition looks_at_some (cutoff : option Z) (n : nat) : Prop := (0 < retrieved cutoff n)%nat.
