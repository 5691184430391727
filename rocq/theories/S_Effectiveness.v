(** What the effectiveness analyses should compute, in exact arithmetic. *)
From Coq Require Import List ZArith Bool Reals.
From Verif Require Import Base Num M_Dataset M_NDCG S_Dataset M_Ensemble S_Ensemble M_Effectiveness.
Import ListNotations.
Local Open Scope Z_scope.

(** The answer of one model on one data set, computed apart, without using or filling a cache. *)
Section Fresh.
Context {N : Num.num}.
Variable (rowsum : list N -> N) (digest : list (list N) -> list N -> list Z -> Z).
Definition alone (st : list (model N)) (i : nat) (o : obj (N:=N)) (detailed : bool) : res (answer (N:=N)) :=
  do m <- of_option IndexError (nth_error st i); snd (score rowsum digest m o detailed false).
End Fresh.

(** The trees and weights of a model. *)
Definition shape : Type := (list (tree Z R) * list R)%type.
Definition known (m : model RE) (s : shape) : Prop :=
  m_cache m = [] /\ laid_out (m_ens m) (fst s) (snd s) /\ fst s <> [] /\ nonneg_features (fst s).

(** Models with trees [sh] and no cache yet, data sets that can serve as keys of a cache. *)
Definition ready (digest : list (list RE) -> list RE -> list Z -> Z) (st : list (model RE)) (sh : list shape) (ds : list (obj (N:=RE))) : Prop :=
  Forall2 known st sh /\ Forall (fun o => rect (snd o)) ds /\ distinguishable (N:=RE) digest ds.

(** The scores that the first [k] trees give. *)
Definition scores_first (k : nat) (m : model RE) (s : shape) (d : dataset RE) : list R :=
  map (fun row => (m_lr m * real_score (firstn k (snd s)) (firstn k (fst s)) row + base_of (m_base m))%R) (ds_X d).
Definition scores_of (m : model RE) (s : shape) (d : dataset RE) : list R := scores_first (length (fst s)) m s d.

(** Cells of nested lists. *)
Definition at2 {A} (l : list (list A)) (a b : nat) : option A :=
  match nth_error l a with Some r => nth_error r b | None => None end.
Definition at3 {A} (l : list (list (list A))) (a b c : nat) : option A :=
  match at2 l a b with Some r => nth_error r c | None => None end.
Definition at4 {A} (l : list (list (list (list A)))) (a b c e : nat) : option A :=
  match at3 l a b c with Some r => nth_error r e | None => None end.

(** Number of trees of a model, and of the largest one. *)
Definition trees_in (sh : list shape) (i : nat) : Z := match nth_error sh i with Some s => Z.of_nat (length (fst s)) | None => 0 end.
Definition largest (sh : list shape) (ms : list nat) : Z := fold_right Z.max 0 (map (trees_in sh) ms).

(** Contribution of the tree at position [t] (whose first tree carries the base score). *)
Definition tree_part (m : model RE) (s : shape) (t : nat) (row : list R) : option R :=
  match nth_error (snd s) t, nth_error (fst s) t with
  | Some w, Some tr => Some (m_lr m * (w * snd (exit_leaf (N:=RE) row tr)) + (match t with O => base_of (m_base m) | S _ => 0 end))%R
  | _, _ => None
  end.
Definition value_or_zero (o : option R) : R := match o with Some v => v | None => 0%R end.
Definition mean (l : list R) : R := (Rtotal l / INR (length l))%R.

(** Smallest and largest elements. *)
Definition least (P : R -> Prop) (x : R) : Prop := P x /\ forall v, P v -> (x <= v)%R.
Definition greatest (P : R -> Prop) (x : R) : Prop := P x /\ forall v, P v -> (v <= x)%R.
Definition bound_of (given : option R) (found : R -> Prop) (x : R) : Prop := match given with Some v => x = v | None => found x end.

(** Cumulative distribution of [u] over [bins] equal intervals of [lo, hi]: the values from [lo] up to
    the upper edge, which belongs to the last interval only. *)
Definition upper_edge (lo hi : R) (bins i : nat) : R := (lo + INR (S i) * (hi - lo) / INR bins)%R.
Definition inside (lo hi : R) (bins i : nat) (v : R) : bool :=
  Rleb lo v && (if (S i =? bins)%nat then Rleb v hi else Rltb v (upper_edge lo hi bins i)).
Definition fraction (p : R -> bool) (u : list R) : R := (INR (length (filter p u)) / INR (length u))%R.
Definition is_curve (lo hi : R) (bins : nat) (u : list R) (curve : list (option R)) : Prop :=
  length curve = bins /\
  forall i, (i < bins)%nat -> nth_error curve i = Some (match u with [] => None | _ => Some (fraction (inside lo hi bins i) u) end).
(** A curve in the usual sense. *)
Definition grows_in_unit (curve : list (option R)) : Prop :=
  (forall i v, nth_error curve i = Some (Some v) -> (0 <= v <= 1)%R) /\
  (forall i j v w, (i <= j)%nat -> nth_error curve i = Some (Some v) -> nth_error curve j = Some (Some w) -> (v <= w)%R).

(** [v] is what the metric [f] gives on the data set [o] for the model at position [i]. *)
Definition evaluated (st : list (model RE)) (sh : list shape) (o : obj (N:=RE)) (i : nat) (f : evaluator (N:=RE)) (v : R * list R) : Prop :=
  exists m s, nth_error st i = Some m /\ nth_error sh i = Some s /\ f (snd o) (scores_of m s (snd o)) = Ok v.
(** [x] is the value of some query. *)
Definition query_value st sh (ds : list (obj (N:=RE))) (ms : list nat) (metrics : list (evaluator (N:=RE))) (x : R) : Prop :=
  exists o i f v, In o ds /\ In i ms /\ In f metrics /\ evaluated st sh o i f v /\ In x (snd v).
(** [x] is the score of some document. *)
Definition document_score (st : list (model RE)) (sh : list shape) (ds : list (obj (N:=RE))) (ms : list nat) (x : R) : Prop :=
  exists o i m s, In o ds /\ In i ms /\ nth_error st i = Some m /\ nth_error sh i = Some s /\ In x (scores_of m s (snd o)).
(** The number of bins: the given one, or the largest number of queries. *)
Definition bins_of (given : option Z) (ds : list (obj (N:=RE))) (b : nat) : Prop :=
  match given with
  | Some z => z = Z.of_nat b
  | None => (exists o, In o ds /\ b = n_queries (snd o)) /\ forall o, In o ds -> (n_queries (snd o) <= b)%nat
  end.

(** The entries of [u] whose class is [c]. *)
Definition members {A} (c : Z) (classes : list Z) (u : list A) : list A :=
  map snd (filter (fun p => fst p =? c) (combine classes u)).
Definition label_members (l : R) (labels u : list R) : list R :=
  map snd (filter (fun p => Reqb (fst p) l) (combine labels u)).
Definition increasing (l : list R) : Prop := forall i j a b, (i < j)%nat -> nth_error l i = Some a -> nth_error l j = Some b -> (a < b)%R.

(** Pairs of rows of the same query, [ids] being the query of each row. *)
Definition same_query (ids : list Z) (i j : nat) : bool :=
  match nth_error ids i, nth_error ids j with Some a, Some b => a =? b | _, _ => false end.
Definition ordered_pairs (ids : list Z) : list (nat * nat) :=
  filter (fun p => same_query ids (fst p) (snd p)) (list_prod (seq 0 (length ids)) (seq 0 (length ids))).
Definition unordered_pairs (ids : list Z) : list (nat * nat) := filter (fun p => (fst p <=? snd p)%nat) (ordered_pairs ids).
Definition number_of {A} (p : A -> bool) (l : list A) : Z := Z.of_nat (length (filter p l)).
Definition has_label (y : list R) (a : nat) (i : nat) : bool := match nth_error y i with Some v => Reqb v (INR a) | None => false end.
Definition same_label (y : list R) (i j : nat) : bool := match nth_error y i, nth_error y j with Some u, Some v => Reqb u v | _, _ => false end.
(** Row [i] is scored below row [j]; equal scores count as below for the later row. *)
Definition ranked_below (s : list R) (i j : nat) : bool :=
  match nth_error s i, nth_error s j with Some u, Some v => Rltb u v || (Reqb u v && (j <? i)%nat) | _, _ => false end.
Definition scored_below (s : list R) (i j : nat) : bool := match nth_error s i, nth_error s j with Some u, Some v => Rltb u v | _, _ => false end.
Definition no_ties (ids : list Z) (s : list R) : Prop := forall i j u v, (i < j)%nat -> same_query ids i j = true -> nth_error s i = Some u -> nth_error s j = Some v -> u <> v.
(** The labels are the integers below [L], all used. *)
Definition integer_labels (ds : list (obj (N:=RE))) (L : nat) : Prop := forall x, (exists o, In o ds /\ In x (ds_y (snd o))) <-> exists k, (k < L)%nat /\ x = INR k.
Definition matrix_total (M : list (list Z)) : Z := fold_right Z.add 0 (map (fold_right Z.add 0) M).
Definition square (L : nat) (M : list (list Z)) : Prop := length M = L /\ forall row, In row M -> length row = L.
(** The rank confusion matrix: rows of label [a] scored below rows of label [b] of the same query; on the
    diagonal the pairs of rows of that label, a row and itself included. *)
Definition confusion_entry (ids : list Z) (y s : list R) (skip : bool) (a b : nat) : Z :=
  if (a =? b)%nat then if skip then 0 else number_of (fun p => has_label y a (fst p) && has_label y a (snd p)) (unordered_pairs ids)
  else number_of (fun p => has_label y a (fst p) && has_label y b (snd p) && ranked_below s (fst p) (snd p)) (ordered_pairs ids).
