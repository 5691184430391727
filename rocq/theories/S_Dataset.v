(** Specification vocabulary for data sets, independent of how the code computes. *)
From Coq Require Import List ZArith Lia Bool Permutation.
From Verif Require Import Base M_Dataset.
Import ListNotations.
Set Implicit Arguments.
Local Open Scope Z_scope.

(** The rows of each query are adjacent in the id column. *)
Definition grouped (ids : list Z) : Prop :=
  forall i j k a, (i <= j <= k)%nat ->
    nth_error ids i = Some a -> nth_error ids k = Some a -> nth_error ids j = Some a.

(** All ids fit in int32 (what the loader produces). *)
Definition int32_ids (ids : list Z) : Prop := Forall (fun q => - 2 ^ 31 <= q < 2 ^ 31) ids.

(** A well-formed constructor call: as many ids as rows and labels, ids grouped
    and int32, and [d] is the object built. *)
Definition built {V} (nf : nat) (X : list (list V)) (y : list V) (ids : list Z)
  (d : dataset V) : Prop :=
  length y = length ids /\ grouped ids /\ int32_ids ids /\ ds_init nf X y ids = Ok d.

(** The table a user sees: one (query id, (features, label)) per instance. *)
Definition rows_of {V} (ids : list Z) (X : list (list V)) (y : list V)
  : list (Z * (list V * V)) := combine ids (combine X y).
Definition rows {V} (d : dataset V) : list (Z * (list V * V)) :=
  rows_of (get_qids_dataset d) (ds_X d) (ds_y d).

Definition memz (qs : list Z) (q : Z) : bool := existsb (Z.eqb q) qs.

(** Instances of one query, in order. *)
Definition query_rows {V} (q : Z) (d : dataset V) : list (Z * (list V * V)) :=
  filter (fun r => fst r =? q) (rows d).

(** [z] is the integer nearest to [q], ties going to the even one (the
    documented behaviour of Python 3's [round]). *)
Definition nearest_even (q : QArith_base.Q) (z : Z) : Prop :=
  let d := QArith_base.Qminus q (QArith_base.inject_Z z) in
  let half := QArith_base.Qmake 1 2 in
  (QArith_base.Qlt (QArith_base.Qopp half) d /\ QArith_base.Qlt d half)
  \/ ((QArith_base.Qeq d half \/ QArith_base.Qeq d (QArith_base.Qopp half)) /\ Z.even z = true).

(** The partitions returned by [split], in order. *)
Definition split_parts {V} (r : split_result (V:=V)) : list (dataset V) :=
  let '(tr, vl, te) := r in
  tr :: match vl with Some v => [v] | None => [] end ++ [te].

(** Same shapes (needed for NumPy comparisons to be element-wise). *)
Definition rect {V} (d : dataset V) : Prop :=
  Forall (fun row => length row = ds_nf d) (ds_X d) /\ length (ds_y d) = length (ds_X d).
Definition same_shape {V} (d d' : dataset V) : Prop :=
  length (ds_X d) = length (ds_X d') /\ ds_nf d = ds_nf d' /\
  length (ds_qids d) = length (ds_qids d').

(** The entries of a per-instance column that belong to query [q], in row order. *)
Definition select {A} (q : Z) (ids : list Z) (col : list A) : list A :=
  map snd (filter (fun p => fst p =? q) (combine ids col)).
