(** Sizes that the code computes in double precision.  M_Dataset.v, M_Statistical.v, M_Svmlight.v and
    M_Loaders.v use integers and rationals in these places; here are the computations with doubles. *)
From Coq Require Import List ZArith Bool SpecFloat.
From Verif Require Import Base Lists Num M_Text M_Float M_IEEE M_Svmlight M_Dataset M_Ensemble M_Effectiveness M_Statistical M_Loaders.
Import ListNotations.
Local Open Scope Z_scope.

(** The value of a finite float is [fst / snd]. *)
Definition fraction (x : spec_float) : Z * Z :=
  match x with
  | S754_finite s m e => (cond_Zopp s (Zpos m) * 2 ^ Z.max 0 e, 2 ^ Z.max 0 (- e))
  | _ => (0, 1)
  end.
(** Python's conversions of a float to an integer: ValueError for NaN, OverflowError (here
    PlainException) for an infinity. *)
Definition integer_by (f : Z -> Z -> Z) (x : IEEE64) : res Z :=
  match x with
  | S754_nan => Err ValueError
  | S754_infinity _ => Err PlainException
  | _ => Ok (f (fst (fraction x)) (snd (fraction x)))
  end.
(** int(np.floor(x)), int(math.ceil(x)), int(x), int(round(x)). *)
Definition floor_int : IEEE64 -> res Z := integer_by Z.div.
Definition ceil_int : IEEE64 -> res Z := integer_by (fun a b => - ((- a) / b)).
Definition trunc_int : IEEE64 -> res Z := integer_by Z.quot.
Definition round_int : IEEE64 -> res Z := integer_by (fun a b => Z.sgn a * round_even (Z.abs a) b).

(** a / b on integers: CPython rounds the quotient once. *)
Definition true_div (a b : Z) : res IEEE64 :=
  if b =? 0 then Err ZeroDivisionError
  else Ok (decode 52 1024 (xorb (a <? 0) (b <? 0)) (fround 52 (Z.abs a * 2 ^ 1074) (Z.abs b))).
(** a / float(b). *)
Definition float_div (a b : Z) : res IEEE64 :=
  if b =? 0 then Err ZeroDivisionError else Ok (ndiv (n:=IEEE64) (nofZ a) (nofZ b)).

(** dataset.py 348: fold_size. *)
Definition fold_size (n k : Z) : res Z := do q <- true_div n k; floor_int q.
(** dataset.py 325-374 with this fold size (see M_Dataset.v kfold_indices, kfold_qids). *)
Definition kfold_indices_by (size n k c : Z) : list Z * list Z * list Z :=
  let sp i := size * i in
  let idx_train := sp c in
  let idx_vali := sp ((c - 2) mod k) in
  let idx_test := sp ((c - 1) mod k) in
  (fold_range n idx_train idx_vali, fold_range n idx_vali idx_test, fold_range n idx_test idx_train).
Definition kfold_qids_double (n_folds : nat) (qids : list Z) : res (list (list Z * list Z * list Z)) :=
  let n := Z.of_nat (length qids) in
  do size <- fold_size n (Z.of_nat n_folds);
  Ok (map (fun c => let '(a, b, t) := kfold_indices_by size n (Z.of_nat n_folds) (Z.of_nat c) in
                    (gather qids a, gather qids b, gather qids t)) (seq 0 n_folds)).

(** statistical.py 187-244 with the chunk size of line 209 (see M_Statistical.v kfold_scoring). *)
Definition chunk_size (n k : Z) : res Z := do q <- float_div n k; ceil_int q.
Definition kfold_scoring_double {N : num} (notebook : bool) (algo : algorithm N) (d : dataset N) (k : Z) (shuffled : list nat) (made : list (call N))
    : list (call N) * res (list N) :=
  let n := Z.of_nat (n_queries d) in
  match chunk_size n k with
  | Err e => (made, Err e)
  | Ok chunk =>
      match py_range 0 n chunk with
      | Err e => (made, Err e)
      | Ok starts =>
          let '(made', r) := kfold_loop algo d shuffled chunk starts made (repeat nzero (n_instances d)) in
          (made', do scores <- r; if notebook then Ok scores else Err UnboundLocalError)
      end
  end.

(** svmlight_format.py 83-85: the number of columns, refused if the data do not fill the matrix. *)
Definition column_count (size n_samples : Z) : res Z :=
  do q <- true_div size n_samples; do c <- trunc_int q; if n_samples * c =? size then Ok c else Err ValueError.
(** load_svmlight_file (M_Svmlight.v) with this number of columns. *)
Definition load_svmlight_double {V} (F : fmt V) (f : text) : res (nat * list (list V) * list V * list Z) :=
  do st <- parse_file F f;
  do w <- column_count (Z.of_nat (length (l_data st))) (Z.of_nat (length (l_labels st)));
  Ok (Z.to_nat w, map (map (clamp F)) (chunks (length (l_labels st)) (Z.to_nat w) (l_data st)), l_labels st, l_qids st).
(** proxy_CatBoost.py 70; both numbers are NumPy integers (an infinite or missing quotient of a
    division by zero fails in int()). *)
Definition nodes_per_tree (n_nodes n_trees : Z) : res Z := trunc_int (ndiv (n:=IEEE64) (nofZ n_nodes) (nofZ n_trees)).
(** proxy_CatBoost.py 44-108 with this quotient (see M_Loaders.v cat_load). *)
Definition cat_load_double {N : num} (junk : list Z) (nodes : list cnode) : res (ensemble N) :=
  do c <- cat_count junk nodes;
  do e <- initialize (fst c) (snd c);
  do m <- nodes_per_tree (snd c) (fst c);
  foldM (cat_step m) nodes e.

(** dataset.py 196-201 on doubles. *)
Definition split_sizes_double (t v : IEEE64) (n : nat) : res (Z * Z * Z) :=
  if nltb t nzero || nltb none t || nltb none (nadd t v) then Err PlainException
  else
    do tq <- round_int (nmul t (nofZ (Z.of_nat n)));
    do vq <- round_int (nmul v (nofZ (Z.of_nat n)));
    Ok (tq, vq, Z.of_nat n - tq - vq).
(** dataset.py 167-231 on doubles (see M_Dataset.v split). *)
Definition split_double {V} (t v : IEEE64) (perm : list Z) (d : dataset V) : res (split_result (V:=V)) :=
  do sz <- split_sizes_double t v (n_queries d);
  let '(train_qn, vali_qn, test_qn) := sz in
  let qid_map := unroll u32 (blank d) d in
  let '(train_qid, vali_qid, test_qid) := split_qids perm train_qn vali_qn test_qn in
  let mk m := ds_init (ds_nf d) (mask_select m (ds_X d)) (mask_select m (ds_y d)) (mask_select m qid_map) in
  do train <- mk (in1d qid_map train_qid);
  do vali <- (if neqb v nzero then Ok None else do p <- mk (in1d qid_map vali_qid); Ok (Some p));
  do test <- mk (in1d qid_map test_qid);
  Ok (train, vali, test).
