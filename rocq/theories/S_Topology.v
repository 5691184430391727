(** Positions in a binary tree. *)
From Coq Require Import List ZArith Bool.
From Verif Require Import Base Num M_Dataset M_Ensemble S_Ensemble.
Import ListNotations.
Local Open Scope Z_scope.

Section Positions.
Context {A V : Type}.
(** The subtree at depth [d] and column [c] of the full binary tree: the [d] bits of [c],
    most significant first, say left (0) or right (1). *)
Fixpoint subtree_at (d : nat) (c : Z) (t : tree A V) : option (tree A V) :=
  match d, t with
  | O, _ => Some t
  | S d', Leaf _ _ => None
  | S d', Node _ _ _ l r => if Z.testbit c (Z.of_nat d') then subtree_at d' c r else subtree_at d' c l
  end.
(** Is there a node there; is there a split there. *)
Definition node_here (d : nat) (c : Z) (t : tree A V) : bool :=
  match subtree_at d c t with Some _ => true | None => false end.
Definition split_here (d : nat) (c : Z) (t : tree A V) : bool :=
  match subtree_at d c t with Some (Node _ _ _ _ _) => true | _ => false end.
(** What the analysis counts: nodes, or splits and the roots. *)
Definition counted (include_leaves : bool) (d : nat) (c : Z) (t : tree A V) : bool :=
  if include_leaves then node_here d c t else match d with O => node_here d c t | S _ => split_here d c t end.
End Positions.
(** How many trees. *)
Definition how_many {A V} (p : tree A V -> bool) (ts : list (tree A V)) : Z := Z.of_nat (length (filter p ts)).
(** Parents come before their children. *)
Fixpoint parents_first {V} (t : tree Z V) : Prop :=
  match t with
  | Leaf _ _ => True
  | Node i _ _ l r => i < mark l /\ i < mark r /\ parents_first l /\ parents_first r
  end.
(** The entry of a sparse matrix. *)
Definition entry (m : list (Z * Z * Z)) (row col : Z) : Z :=
  fold_right Z.add 0 (map snd (filter (fun p => (fst (fst p) =? row) && (snd (fst p) =? col)) m)).
(** Sum of integers. *)
Definition zsum (l : list Z) : Z := fold_right Z.add 0 l.
