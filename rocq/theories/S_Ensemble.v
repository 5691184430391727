(** Binary regression trees as an inductive type, and what it means for the arrays of an
    ensemble to encode them. *)
From Coq Require Import List ZArith Bool Permutation.
From Verif Require Import Base Num M_Dataset S_Dataset M_NDCG M_Ensemble.
Import ListNotations.
Local Open Scope Z_scope.

(** Trees whose nodes carry an annotation (the array index, or nothing). *)
Inductive tree (A V : Type) : Type :=
| Leaf (a : A) (v : V)
| Node (a : A) (f : Z) (thr : V) (l r : tree A V).
Arguments Leaf {A V}.
Arguments Node {A V}.

Section Trees.
Context {A V : Type}.
Definition mark (t : tree A V) : A := match t with Leaf a _ => a | Node a _ _ _ _ => a end.
Fixpoint marks (t : tree A V) : list A :=
  match t with Leaf a _ => [a] | Node a _ _ l r => a :: marks l ++ marks r end.
Fixpoint size (t : tree A V) : nat :=
  match t with Leaf _ _ => 1 | Node _ _ _ l r => 1 + size l + size r end.
Fixpoint leaves (t : tree A V) : nat :=
  match t with Leaf _ _ => 1 | Node _ _ _ l r => leaves l + leaves r end.
Fixpoint height (t : tree A V) : nat :=
  match t with Leaf _ _ => 0 | Node _ _ _ l r => 1 + Nat.max (height l) (height r) end.
(** Features tested by the splits. *)
Fixpoint splits (t : tree A V) : list Z :=
  match t with Leaf _ _ => [] | Node _ f _ l r => f :: splits l ++ splits r end.
(** The tree without its annotations. *)
Fixpoint erase (t : tree A V) : tree unit V :=
  match t with Leaf _ v => Leaf tt v | Node _ f thr l r => Node tt f thr (erase l) (erase r) end.
End Trees.

Section Spec.
Context {N : num}.

(** The leaf reached by an instance: feature [f] at most the threshold goes left. *)
Fixpoint exit_leaf {A} (row : list N) (t : tree A N) : A * N :=
  match t with
  | Leaf a v => (a, v)
  | Node _ f thr l r => if nleb (nth (Z.to_nat f) row nzero) thr then exit_leaf row l else exit_leaf row r
  end.

(** The arrays of [e] contain the tree [t] annotated with array indices. *)
Fixpoint represents (e : ensemble N) (t : tree Z N) : Prop :=
  match t with
  | Leaf i v =>
      zget (e_left e) i = Some (-1) /\ zget (e_right e) i = Some (-1) /\
      zget (e_feature e) i = Some (-1) /\ zget (e_value e) i = Some v
  | Node i f thr l r =>
      zget (e_left e) i = Some (mark l) /\ zget (e_right e) i = Some (mark r) /\
      zget (e_feature e) i = Some f /\ zget (e_value e) i = Some thr /\
      represents e l /\ represents e r
  end.

Definition encodes (e : ensemble N) (ts : list (tree Z N)) (ws : list N) : Prop :=
  e_ntrees e = Z.of_nat (length ts) /\ e_root e = map mark ts /\
  e_weight e = ws /\ length ws = length ts /\ Forall (represents e) ts.

(** The trees occupy consecutive blocks of nodes, root first. *)
Fixpoint consecutive (a : Z) (ts : list (tree Z N)) : Prop :=
  match ts with
  | [] => True
  | t :: r => mark t = a /\ Permutation (marks t) (zrange a (a + Z.of_nat (size t))) /\
              consecutive (a + Z.of_nat (size t)) r
  end.
Definition total_size (ts : list (tree Z N)) : nat := list_sum (map size ts).
Definition laid_out (e : ensemble N) (ts : list (tree Z N)) (ws : list N) : Prop :=
  encodes e ts ws /\ consecutive 0 ts /\ e_nnodes e = Z.of_nat (total_size ts) /\
  length (e_left e) = total_size ts /\ length (e_right e) = total_size ts /\
  length (e_value e) = total_size ts /\ length (e_feature e) = total_size ts.

(** The row has a value for every feature tested. *)
Definition covers (row : list N) (ts : list (tree Z N)) : Prop :=
  Forall (fun t => Forall (fun f => 0 <= f < Z.of_nat (length row)) (splits t)) ts.

(** Leaf value times weight, tree by tree; and their sum in float32, left to right. *)
Definition tree_scores (ws : list N) (ts : list (tree Z N)) (row : list N) : list N :=
  map (fun p => nf32 (nmul (snd (exit_leaf row (snd p))) (fst p))) (combine ws ts).
Definition ensemble_score (ws : list N) (ts : list (tree Z N)) (row : list N) : N :=
  fold_left (fun y s => nf32 (nadd y s)) (tree_scores ws ts row) nzero.

(** A data set whose rows all have [n_features] columns. *)
Definition rows_fit (d : dataset N) : Prop := Forall (fun r => length r = ds_nf d) (ds_X d).

(** [k], scored earlier, cannot be confused with [o]: either they are the same object,
    or their hashes differ, or == answers, and answers True only for equal features. *)
Definition scores_alike (digest : list (list N) -> list N -> list Z -> Z) (k o : obj (N:=N)) : Prop :=
  k = o \/
  (fst k <> fst o /\
   (ds_hash digest (snd k) = ds_hash digest (snd o) ->
    exists b, ds_eq neqb (snd k) (snd o) = Ok b /\ (b = true -> ds_X (snd k) = ds_X (snd o)))).

(** The trees can be walked on the rows of [o], if the check on the features passes. *)
Definition scorable (e : ensemble N) (o : obj (N:=N)) : Prop :=
  check_features e (snd o) = Ok tt -> exists r, detailed_scoring e (ds_X (snd o)) = Ok r.

(** Data sets scored in a history. *)
Definition scored (h : list (scall (N:=N))) : list (obj (N:=N)) :=
  flat_map (fun c => match c with CallScore o _ _ => [o] | CallClear => [] end) h.
End Spec.

(** ** Exact arithmetic *)
From Coq Require Import Reals.
Definition Rtotal (l : list R) : R := fold_right Rplus 0%R l.
(** Sum over the trees of weight times value of the leaf reached. *)
Definition real_score (ws : list R) (ts : list (tree Z R)) (row : list R) : R :=
  Rtotal (map (fun p => (fst p * snd (exit_leaf (N:=RE) row (snd p)))%R) (combine ws ts)).
Definition base_of (b : option R) : R := match b with Some v => v | None => 0%R end.

(** Some split tests a feature that the data set does not have. *)
Definition too_wide {V} (nf : nat) (ts : list (tree Z V)) : Prop :=
  exists t f, In t ts /\ In f (splits t) /\ Z.of_nat nf <= f.
Definition nonneg_features {V} (ts : list (tree Z V)) : Prop :=
  Forall (fun t => Forall (fun f => 0 <= f) (splits t)) ts.

(** Per-tree contribution: learning rate times weight times leaf value, the base score
    being added to the first tree. *)
Local Open Scope R_scope.
Definition contribution (lr : R) (b : option R) (ws : list R) (ts : list (tree Z R)) (row : list R) (part : list R) : Prop :=
  length part = length ts /\
  (forall k w t, nth_error ws k = Some w -> nth_error ts k = Some t ->
     nth_error part k = Some (lr * (w * snd (exit_leaf (N:=RE) row t)) + (match k with O => base_of b | S _ => 0 end))) /\
  Rtotal part = lr * real_score ws ts row + base_of b.

(** The objects of a history are told apart by their identity; data sets whose hashes
    collide have the same shape. *)
Definition distinguishable {N : Num.num} (digest : list (list N) -> list N -> list Z -> Z) (os : list (obj (N:=N))) : Prop :=
  forall k k', In k os -> In k' os ->
    (fst k = fst k' -> k = k') /\
    (ds_hash digest (snd k) = ds_hash digest (snd k') -> same_shape (snd k) (snd k')).
