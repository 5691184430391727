(** Model dumps of which only the beginning was written: specification. *)
From Coq Require Import Ascii String List ZArith Bool.
From Verif Require Import Base Num M_Text M_Ensemble S_Ensemble S_Loaders.
Import ListNotations.
Local Open Scope nat_scope.

(** What is left of a tree if only the first [k] nodes of its dump are there: a split of which
    no node of the right subtree is there counts as a leaf whose value is the threshold. *)
Fixpoint cut_tree {A V} (k : nat) (t : tree A V) : tree A V :=
  match t with
  | Leaf a v => Leaf a v
  | Node a f x l r => if k <=? S (size l) then Leaf a x else Node a f x l (cut_tree (k - S (size l)) r)
  end.
(** The trees of the first [n] lines of a dump: each tree has a line of its own and one per node. *)
Fixpoint kept_trees {A V} (n : nat) (ts : list (tree A V)) : list (tree A V) :=
  match n, ts with
  | S k, t :: r => cut_tree k t :: kept_trees (k - size t) r
  | _, _ => []
  end.
(** The last of the first [n] lines is the line of a tree of which no node is there. *)
Fixpoint no_node {A V} (n : nat) (ts : list (tree A V)) : Prop :=
  match n, ts with
  | S O, _ :: _ => True
  | S k, t :: r => no_node (k - size t) r
  | _, _ => False
  end.

(** The text of the leaf of line [n] (from 0), if that line is a leaf; and the trees with
    another text there. *)
Fixpoint leaf_in {A V} (k : nat) (t : tree A V) : option V :=
  match t with
  | Leaf _ v => if k =? 0 then Some v else None
  | Node _ _ _ l r => if k =? 0 then None else if k <=? size l then leaf_in (k - 1) l else leaf_in (k - S (size l)) r
  end.
Fixpoint put_leaf {A V} (k : nat) (p : V) (t : tree A V) : tree A V :=
  match t with
  | Leaf a v => if k =? 0 then Leaf a p else Leaf a v
  | Node a f x l r =>
      if k =? 0 then Node a f x l r
      else if k <=? size l then Node a f x (put_leaf (k - 1) p l) r else Node a f x l (put_leaf (k - S (size l)) p r)
  end.
Fixpoint leaf_line {A V} (n : nat) (ts : list (tree A V)) : option V :=
  match n, ts with
  | S k, t :: r => if k <? size t then leaf_in k t else leaf_line (k - size t) r
  | _, _ => None
  end.
Fixpoint put_line {A V} (n : nat) (p : V) (ts : list (tree A V)) : list (tree A V) :=
  match n, ts with
  | S k, t :: r => if k <? size t then put_leaf k p t :: r else t :: put_line (k - size t) p r
  | _, _ => ts
  end.
