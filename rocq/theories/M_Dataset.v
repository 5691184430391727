(** Model of rankeval/dataset/dataset.py.

    A data set is generic in the type [V] of cells and labels: this file only
    moves values around (and compares them for equality in [__eq__]).

    Simplifications: [name] attributes are dropped; the two random generators
    (np.random.shuffle, rng.permutation) are replaced by the permuted array they
    produce, passed as an argument; [load] is in M_Svmlight.v. *)
From Coq Require Import List ZArith QArith Qround Lia Bool.
From Verif Require Import Base.
Import ListNotations.
Set Implicit Arguments.
Local Open Scope Z_scope.

(** dataset.py 19-44, 64-84: attributes of a Dataset object.  [ds_nf] is
    [X.shape[1]] (NumPy keeps the number of columns even for zero rows). *)
Record dataset (V : Type) : Type := mkDataset {
  ds_X : list (list V);
  ds_nf : nat;
  ds_y : list V;
  ds_qids : list Z;        (* query_ids: one per distinct query *)
  ds_offs : list nat       (* query_offsets: n_queries + 1 entries *)
}.
Arguments mkDataset {V}.

Section Dataset.
Context {V : Type}.

(** dataset.py 81, 83: n_instances, n_queries. *)
Definition n_instances (d : dataset V) : nat := length (ds_y d).
Definition n_queries (d : dataset V) : nat := length (ds_qids d).

(** First position of [q] in [l]. *)
Fixpoint first_index (q : Z) (l : list Z) : nat :=
  match l with
  | [] => O
  | x :: xs => if x =? q then O else S (first_index q xs)
  end.

(** np.unique(ids, return_index=True): sorted distinct values with the index of
    their first occurrence (used at dataset.py 65-66). *)
Definition np_unique (ids : list Z) : list (Z * nat) :=
  map (fun q => (q, first_index q ids)) (isort Z.leb (nodup Z.eq_dec ids)).

(** dataset.py 65-74: compact representation of the id column.  The
    argsort + fancy indexing of lines 70-72 is a sort of the pairs by offset. *)
Definition compact_ids (ids : list Z) : list Z * list nat :=
  let u := isort (fun a b : Z * nat => Nat.leb (snd a) (snd b)) (np_unique ids) in
  (map fst u, map snd u ++ [length ids]).

(** dataset.py 46-84: Dataset.__init__.  Only the number of rows of X is checked
    (lines 59-62). *)
Definition ds_init (nf : nat) (X : list (list V)) (y : list V) (ids : list Z)
  : res (dataset V) :=
  if negb (Nat.eqb (length ids) (length X)) then Err PlainException
  else let '(q, o) := compact_ids ids in Ok (mkDataset X nf y q o).

(** dataset.py 256-271: query_iterator, the triples
    (query_ids[i], query_offsets[i], query_offsets[i+1]). *)
Definition query_iterator (d : dataset V) : list (Z * (nat * nat)) :=
  combine (ds_qids d) (combine (ds_offs d) (tl (ds_offs d))).

(** dataset.py 273-282: get_query_sizes (np.ediff1d). *)
Definition get_query_sizes (d : dataset V) : list nat :=
  map (fun p => (snd p - fst p)%nat) (combine (ds_offs d) (tl (ds_offs d))).

(** Assignment [arr[s:e] = v] (also the element-wise loops of lines 157-160 and
    203-206). *)
Definition assign_range (s e : nat) (v : Z) (arr : list Z) : list Z :=
  map (fun p => if (Nat.leb s (fst p) && Nat.ltb (fst p) e)%bool then v else snd p)
      (combine (seq 0 (length arr)) arr).

(** Unrolling of the compact ids into an array of [n_instances] cells through a
    cast to the dtype of the array.  The array is np.empty / np.ndarray, i.e.
    uninitialised: its initial content is the argument [junk]. *)
Definition unroll (cast : Z -> Z) (junk : list Z) (d : dataset V) : list Z :=
  fold_left (fun arr t => assign_range (fst (snd t)) (snd (snd t)) (cast (fst t)) arr)
            (query_iterator d) junk.

Definition blank (d : dataset V) : list Z := repeat 0 (n_instances d).

(** dataset.py 284-297: get_qids_dataset (dtype=np.int32). *)
Definition get_qids_dataset (d : dataset V) : list Z := unroll i32 (blank d) d.

(** dataset.py 115-134: subset_features, X[:, features] (NumPy indexing: negative
    indices count from the end, out of range raises IndexError). *)
Definition subset_features (features : list Z) (d : dataset V) : res (dataset V) :=
  do X' <- mapM (fun row => mapM (fun f => py_get row f) features) (ds_X d);
  ds_init (length features) X' (ds_y d) (get_qids_dataset d).

(** dataset.py 233-254: subset. *)
Definition subset (query_ids : list Z) (d : dataset V) : res (dataset V) :=
  let qid_map := get_qids_dataset d in
  let mask := in1d qid_map query_ids in
  ds_init (ds_nf d) (mask_select mask (ds_X d)) (mask_select mask (ds_y d))
          (mask_select mask qid_map).

(** Python 3's round(): to nearest, ties to even. *)
Definition py_round (q : Q) : Z :=
  let f := Qfloor q in
  match Qcompare (q - inject_Z f) (1#2) with
  | Lt => f
  | Gt => f + 1
  | Eq => if Z.even f then f else f + 1
  end.

(** Result of split: train, validation (only if vali_size is non zero), test. *)
Definition split_result : Type := (dataset V * option (dataset V) * dataset V)%type.

(** dataset.py 196-202: argument check and partition sizes (train_qn, vali_qn,
    test_qn).  Ratios are exact rationals (for the products of doubles see M_Sizes.v). *)
Definition split_sizes (train_size vali_size : Q) (n : nat) : res (Z * Z * Z) :=
  if negb (Qle_bool 0 train_size) || negb (Qle_bool train_size 1)
     || negb (Qle_bool (train_size + vali_size) 1)
  then Err PlainException
  else
    let train_qn := py_round (train_size * inject_Z (Z.of_nat n)) in
    let vali_qn := py_round (vali_size * inject_Z (Z.of_nat n)) in
    Ok (train_qn, vali_qn, Z.of_nat n - train_qn - vali_qn).

(** dataset.py 213-215: the three slices of the permuted ids, note [-test_qn:]. *)
Definition split_qids (perm : list Z) (train_qn vali_qn test_qn : Z)
  : list Z * list Z * list Z :=
  (slice_to train_qn perm, slice train_qn (train_qn + vali_qn) perm,
   slice_from (- test_qn) perm).

(** dataset.py 167-231: split.  [perm] is rng.permutation(self.query_ids). *)
Definition split (train_size vali_size : Q) (perm : list Z) (d : dataset V)
  : res split_result :=
  do sz <- split_sizes train_size vali_size (n_queries d);
  let '(train_qn, vali_qn, test_qn) := sz in
  let qid_map := unroll u32 (blank d) d in
  let '(train_qid, vali_qid, test_qid) := split_qids perm train_qn vali_qn test_qn in
  let mk m := ds_init (ds_nf d) (mask_select m (ds_X d)) (mask_select m (ds_y d))
                      (mask_select m qid_map) in
  do train <- mk (in1d qid_map train_qid);
  do vali <- (if Qeq_bool vali_size 0 then Ok None
              else do v <- mk (in1d qid_map vali_qid); Ok (Some v));
  do test <- mk (in1d qid_map test_qid);
  Ok (train, vali, test).

(** dataset.py 299-323: get_query_offsets.  Lines 319-320 apply [.format] to the
    LookupError object, which raises AttributeError before [raise] takes effect. *)
Definition get_query_offsets (query_id : Z) (d : dataset V) : res (nat * nat) :=
  if existsb (Z.eqb query_id) (ds_qids d) then
    let idx := first_index query_id (ds_qids d) in
    Ok (nth idx (ds_offs d) O, nth (S idx) (ds_offs d) O)
  else Err AttributeError.

(** dataset.py 357-371: the rotated index range
    [arange(a, b + n if b < a else b) % n]. *)
Definition fold_range (n a b : Z) : list Z :=
  map (fun i => i mod n) (zrange a (if b <? a then b + n else b)).

(** dataset.py 348-371: indices of the train/vali/test queries of fold [c] (before
    the fancy indexing of [qids]). *)
Definition kfold_indices (n k c : Z) : list Z * list Z * list Z :=
  let fold_size := n / k in
  let sp i := fold_size * i in
  let idx_train := sp c in
  let idx_vali := sp ((c - 2) mod k) in
  let idx_test := sp ((c - 1) mod k) in
  (fold_range n idx_train idx_vali, fold_range n idx_vali idx_test,
   fold_range n idx_test idx_train).

(** Fancy indexing [qids[idx]] (indices are in range by construction). *)
Definition gather (qids : list Z) (idx : list Z) : list Z :=
  map (fun i => nth (Z.to_nat i) qids 0) idx.

(** dataset.py 325-374 with qids_only=True; [qids] is the (possibly shuffled) copy
    of query_ids.  n_folds = 0 divides by zero at line 348. *)
Definition kfold_qids (n_folds : nat) (qids : list Z)
  : res (list (list Z * list Z * list Z)) :=
  match n_folds with
  | O => Err ZeroDivisionError
  | _ => Ok (map (fun c =>
                let '(a, b, t) := kfold_indices (Z.of_nat (length qids)) (Z.of_nat n_folds)
                                                (Z.of_nat c) in
                (gather qids a, gather qids b, gather qids t))
             (seq 0 n_folds))
  end.

(** dataset.py 375-378: the folds as data sets. *)
Definition kfold (n_folds : nat) (qids : list Z) (d : dataset V)
  : res (list (dataset V * dataset V * dataset V)) :=
  do fs <- kfold_qids n_folds qids;
  mapM (fun f => let '(a, b, t) := f in
                 do da <- subset a d; do db <- subset b d; do dt <- subset t d;
                 Ok (da, db, dt)) fs.

(** ** Equality and hashing, dataset.py 404-425 *)

(** NumPy broadcasting of one dimension. *)
Definition bdim (a b : nat) : option nat :=
  if Nat.eqb a b then Some a else if Nat.eqb a 1 then Some b
  else if Nat.eqb b 1 then Some a else None.
Definition bget {A} (l : list A) (i : nat) : option A :=
  if Nat.eqb (length l) 1 then nth_error l 0 else nth_error l i.

Definition opt_eqb {A} (eqb : A -> A -> bool) (a b : option A) : bool :=
  match a, b with Some x, Some y => eqb x y | _, _ => true end.

(** [(a == b).all()] on 1-d arrays.  When the shapes cannot be broadcast NumPy
    returns a plain bool, which has no [.all()]: AttributeError. *)
Definition arr_eq {A} (eqb : A -> A -> bool) (a b : list A) : res bool :=
  match bdim (length a) (length b) with
  | Some n => Ok (forallb (fun i => opt_eqb eqb (bget a i) (bget b i)) (seq 0 n))
  | None => Err AttributeError
  end.

Definition bget_row (X : list (list V)) (nf : nat) (i j : nat) : option V :=
  match bget X i with
  | Some row => if Nat.eqb nf 1 then nth_error row 0 else nth_error row j
  | None => None
  end.

(** [not (X != X').any()] on matrices of shapes (rows, nf). *)
Definition mat_eq (veqb : V -> V -> bool) (X : list (list V)) (nf : nat)
  (X' : list (list V)) (nf' : nat) : res bool :=
  match bdim (length X) (length X'), bdim nf nf' with
  | Some n, Some m =>
      Ok (forallb (fun i => forallb (fun j =>
            opt_eqb veqb (bget_row X nf i j) (bget_row X' nf' i j)) (seq 0 m)) (seq 0 n))
  | _, _ => Err AttributeError
  end.

(** dataset.py 418-422: __eq__ ([and] is short-circuiting). *)
Definition ds_eq (veqb : V -> V -> bool) (d d' : dataset V) : res bool :=
  do x_eq <- mat_eq veqb (ds_X d) (ds_nf d) (ds_X d') (ds_nf d');
  if x_eq then
    do y_eq <- arr_eq veqb (ds_y d) (ds_y d');
    if y_eq then arr_eq Z.eqb (ds_qids d) (ds_qids d') else Ok false
  else Ok false.

(** dataset.py 424-426: __ne__. *)
Definition ds_ne (veqb : V -> V -> bool) (d d' : dataset V) : res bool :=
  do b <- ds_eq veqb d d'; Ok (negb b).

(** dataset.py 404-416: __hash__, for an arbitrary digest of X, y and query_ids. *)
Definition ds_hash {H : Type} (digest : list (list V) -> list V -> list Z -> H)
  (d : dataset V) : H := digest (ds_X d) (ds_y d) (ds_qids d).

End Dataset.
