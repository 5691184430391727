(** Arrays as memory cells shared between objects: what the constructors, Dataset.subset,
    split, kfold, subset_features, RTEnsemble.score, clear_cache and copy alias and what
    they copy (rankeval/dataset/dataset.py, rankeval/model/rt_ensemble.py,
    rankeval/scoring/scorer.py).

    The values computed are those of M_Dataset.v and M_Ensemble.v; this file adds the heap:
    NumPy arrays are buffers with an address, objects hold addresses, a client can write into
    any array it can reach.

    Simplifications: a write replaces the whole contents of an array (a partial write is a
    write of the resulting contents); the attributes of objects (model.learning_rate,
    dataset.X, ...) are not reassigned by the client; the arrays of two cached data sets that
    share an array are copied separately by deepcopy (the copies cannot be reached except
    through the private attribute _cache_scorer); kfold is consumed at once; the number of
    columns of a matrix is given with it; buffers are never reclaimed. *)
From Coq Require Import List ZArith QArith Bool.
From Verif Require Import Base Num M_Dataset M_NDCG M_Ensemble.
Import ListNotations.
Local Open Scope Z_scope.

Section Heap.
Context {N : num}.
Variable rowsum : list N -> N.
Variable digest : list (list N) -> list N -> list Z -> Z.

(** ** Memory *)

(** A NumPy array: 1-d or 2-d, of floats or of integers. *)
Inductive buffer : Type :=
| Floats (v : list N)
| Rows (m : list (list N))
| Ints (v : list Z)
| IntRows (m : list (list Z)).
Definition addr : Type := nat.
Definition heap : Type := list buffer.

Definition floats (h : heap) (a : addr) : list N :=
  match nth_error h a with Some (Floats v) => v | _ => [] end.
Definition rows (h : heap) (a : addr) : list (list N) :=
  match nth_error h a with Some (Rows m) => m | _ => [] end.
Definition ints (h : heap) (a : addr) : list Z :=
  match nth_error h a with Some (Ints v) => v | _ => [] end.
Definition int_rows (h : heap) (a : addr) : list (list Z) :=
  match nth_error h a with Some (IntRows m) => m | _ => [] end.

(** A new array, and a write into an existing one. *)
Definition alloc (h : heap) (b : buffer) : heap * addr := (h ++ [b], length h).
Definition write (h : heap) (a : addr) (b : buffer) : heap := upd h a b.

(** ** Objects *)

(** dataset.py 65-84: the attributes X, y, query_ids, query_offsets, n_features and
    _hash_cached of a Dataset. *)
Record dobj : Type := mkDobj {
  d_X : addr;
  d_y : addr;
  d_qids : addr;
  d_offs : addr;
  d_nf : nat;
  d_hash : option Z
}.

(** scorer.py 45-58: y_pred, partial_y_pred and out_leaves of a Scorer (None or an array). *)
Record sobj : Type := mkSobj {
  s_y : option addr;
  s_partial : option addr;
  s_leaves : option addr
}.
Definition empty_sobj : sobj := mkSobj None None None.

(** A basic slice [a[:n]] is a view: the first cells of the buffer of [a]. *)
Record view : Type := mkView { v_at : addr; v_len : nat }.

(** rt_ensemble.py 103-124: a model; the entries of _cache_scorer are a Dataset object, the
    hash under which the dict stores it, and a Scorer object. *)
Record mobj : Type := mkMobj {
  o_ntrees : Z;
  o_nnodes : Z;
  o_root : view;
  o_weight : view;
  o_left : view;
  o_right : view;
  o_value : view;
  o_feature : view;
  o_lr : N;
  o_base : option N;
  o_cache : list (nat * Z * nat)
}.

(** The memory and the objects created so far (their index is their identity). *)
Record state : Type := mkState {
  mem : heap;
  dss : list dobj;
  scs : list sobj;
  mos : list mobj
}.

(** ** What the objects hold *)

Definition dataset_of (h : heap) (d : dobj) : dataset N :=
  mkDataset (rows h (d_X d)) (d_nf d) (floats h (d_y d)) (ints h (d_qids d))
            (map Z.to_nat (ints h (d_offs d))).
Definition no_dobj : dobj := (mkDobj 0 0 0 0 0 None)%nat.
Definition dataset_at (st : state) (i : nat) : dataset N :=
  dataset_of (mem st) (nth i (dss st) no_dobj).

Definition scorer_of (h : heap) (s : sobj) : scorer N :=
  mkScorer (option_map (floats h) (s_y s)) (option_map (rows h) (s_partial s))
           (option_map (int_rows h) (s_leaves s)).
Definition scorer_at (st : state) (i : nat) : scorer N :=
  scorer_of (mem st) (nth i (scs st) empty_sobj).

Definition view_floats (h : heap) (v : view) : list N := firstn (v_len v) (floats h (v_at v)).
Definition view_ints (h : heap) (v : view) : list Z := firstn (v_len v) (ints h (v_at v)).
Definition ensemble_of (h : heap) (m : mobj) : ensemble N :=
  mkEns (o_ntrees m) (o_nnodes m) (view_ints h (o_root m)) (view_floats h (o_weight m))
        (view_ints h (o_left m)) (view_ints h (o_right m)) (view_floats h (o_value m))
        (view_ints h (o_feature m)).
Definition entry_of (st : state) (c : nat * Z * nat) : obj (N:=N) * scorer N :=
  ((fst (fst c), dataset_at st (fst (fst c))), scorer_at st (snd c)).
Definition model_of (st : state) (m : mobj) : model N :=
  mkModel (ensemble_of (mem st) m) (o_lr m) (o_base m) (map (entry_of st) (o_cache m)).

(** ** Data sets *)

(** dataset.py 65-84: query_ids and query_offsets are new arrays (indexing by an array
    copies), X and y are the arrays given. *)
Definition install (st : state) (X y : addr) (v : dataset N) : state :=
  let '(h1, q) := alloc (mem st) (Ints (ds_qids v)) in
  let '(h2, o) := alloc h1 (Ints (map Z.of_nat (ds_offs v))) in
  mkState h2 (dss st ++ [mkDobj X y q o (ds_nf v) None]) (scs st) (mos st).

(** dataset.py 46-84 called by a client with two arrays of its own. *)
Definition make_dataset (st : state) (nf : nat) (X y ids : addr) : state * res unit :=
  match ds_init nf (rows (mem st) X) (floats (mem st) y) (ints (mem st) ids) with
  | Err e => (st, Err e)
  | Ok v => (install st X y v, Ok tt)
  end.

(** dataset.py 218-228, 253-254: X[mask] and y[mask] are new arrays. *)
Definition install_copy (st : state) (v : dataset N) : state :=
  let '(h1, X) := alloc (mem st) (Rows (ds_X v)) in
  let '(h2, y) := alloc h1 (Floats (ds_y v)) in
  install (mkState h2 (dss st) (scs st) (mos st)) X y v.

(** dataset.py 233-254. *)
Definition heap_subset (st : state) (d : nat) (qids : list Z) : state * res unit :=
  match subset qids (dataset_at st d) with
  | Err e => (st, Err e)
  | Ok v => (install_copy st v, Ok tt)
  end.

(** dataset.py 115-134: the matrix is copied, the array of labels is shared. *)
Definition heap_subset_features (st : state) (d : nat) (features : list Z) : state * res unit :=
  match subset_features features (dataset_at st d) with
  | Err e => (st, Err e)
  | Ok v =>
      let '(h1, X) := alloc (mem st) (Rows (ds_X v)) in
      (install (mkState h1 (dss st) (scs st) (mos st)) X (d_y (nth d (dss st) no_dobj)) v, Ok tt)
  end.

(** dataset.py 167-231. *)
Definition heap_split (st : state) (d : nat) (train vali : Q) (perm : list Z) : state * res unit :=
  match split train vali perm (dataset_at st d) with
  | Err e => (st, Err e)
  | Ok (a, b, c) =>
      let st1 := install_copy st a in
      let st2 := match b with Some v => install_copy st1 v | None => st1 end in
      (install_copy st2 c, Ok tt)
  end.

(** dataset.py 325-378. *)
Definition heap_kfold (st : state) (d : nat) (n_folds : nat) (qids : list Z) : state * res unit :=
  match kfold n_folds qids (dataset_at st d) with
  | Err e => (st, Err e)
  | Ok fs =>
      (fold_left (fun s f => let '(a, b, c) := f in
                             install_copy (install_copy (install_copy s a) b) c) fs st, Ok tt)
  end.

(** dataset.py 404-416: __hash__ computes the digest once. *)
Definition hash_of (st : state) (i : nat) : state * Z :=
  let d := nth i (dss st) no_dobj in
  match d_hash d with
  | Some z => (st, z)
  | None =>
      let z := ds_hash digest (dataset_of (mem st) d) in
      (mkState (mem st)
               (upd (dss st) i (mkDobj (d_X d) (d_y d) (d_qids d) (d_offs d) (d_nf d) (Some z)))
               (scs st) (mos st), z)
  end.

(** ** Models *)

(** A model whose arrays were just allocated by a loader (rt_ensemble.py 157-170). *)
Definition whole (a : addr) (n : nat) : view := mkView a n.
Definition install_model (st : state) (e : ensemble N) (lr : N) (base : option N)
  (cache : list (nat * Z * nat)) : state :=
  let '(h1, a1) := alloc (mem st) (Ints (e_root e)) in
  let '(h2, a2) := alloc h1 (Floats (e_weight e)) in
  let '(h3, a3) := alloc h2 (Ints (e_left e)) in
  let '(h4, a4) := alloc h3 (Ints (e_right e)) in
  let '(h5, a5) := alloc h4 (Floats (e_value e)) in
  let '(h6, a6) := alloc h5 (Ints (e_feature e)) in
  mkState h6 (dss st) (scs st)
          (mos st ++ [mkMobj (e_ntrees e) (e_nnodes e)
                             (whole a1 (length (e_root e))) (whole a2 (length (e_weight e)))
                             (whole a3 (length (e_left e))) (whole a4 (length (e_right e)))
                             (whole a5 (length (e_value e))) (whole a6 (length (e_feature e)))
                             lr base cache]).

Definition no_mobj : mobj :=
  let v := (mkView 0 0)%nat in mkMobj 0 0 v v v v v v nzero None [].
Definition mobj_at (st : state) (m : nat) : mobj := nth m (mos st) no_mobj.
Definition with_cache (m : mobj) (c : list (nat * Z * nat)) : mobj :=
  mkMobj (o_ntrees m) (o_nnodes m) (o_root m) (o_weight m) (o_left m) (o_right m) (o_value m)
         (o_feature m) (o_lr m) (o_base m) c.
Definition set_cache (st : state) (m : nat) (c : list (nat * Z * nat)) : state :=
  mkState (mem st) (dss st) (scs st) (upd (mos st) m (with_cache (mobj_at st m) c)).

(** Comparison of a stored key with the key looked up: the stored hash, then identity,
    then == (on the current contents). *)
Definition key_matches (st : state) (k : nat) (zk : Z) (d : nat) (z : Z) : res bool :=
  if negb (zk =? z) then Ok false
  else if Nat.eqb k d then Ok true
  else ds_eq neqb (dataset_at st k) (dataset_at st d).
Fixpoint cache_lookup (st : state) (c : list (nat * Z * nat)) (d : nat) (z : Z) : res (option nat) :=
  match c with
  | [] => Ok None
  | (k, zk, s) :: c' =>
      do b <- key_matches st k zk d z; if b then Ok (Some s) else cache_lookup st c' d z
  end.
Fixpoint cache_insert (st : state) (c : list (nat * Z * nat)) (d : nat) (z : Z) (s : nat)
  : res (list (nat * Z * nat)) :=
  match c with
  | [] => Ok [(d, z, s)]
  | (k, zk, s') :: c' =>
      do b <- key_matches st k zk d z;
      if b then Ok ((k, zk, s) :: c') else do r <- cache_insert st c' d z s; Ok ((k, zk, s') :: r)
  end.

(** scorer.py 77-91 on a scorer without arrays: the arrays returned by the Cython functions
    and the row sums are new. *)
Definition fill (h : heap) (e : ensemble N) (X : list (list N)) (detailed : bool) : res (heap * sobj) :=
  if detailed then
    do lp <- detailed_scoring e X;
    let '(h1, l) := alloc h (IntRows (fst lp)) in
    let '(h2, p) := alloc h1 (Rows (snd lp)) in
    let '(h3, y) := alloc h2 (Floats (map rowsum (rows h2 p))) in
    Ok (h3, mkSobj (Some y) (Some p) (Some l))
  else
    do s <- basic_scoring e X;
    let '(h1, y) := alloc h (Floats s) in
    Ok (h1, mkSobj (Some y) None None).

(** In-place operations on the array of a scorer. *)
Definition update_y (f : list N -> list N) (h : heap) (s : sobj) : heap :=
  match s_y s with Some a => write h a (Floats (f (floats h a))) | None => h end.
Definition update_partial (f : list (list N) -> list (list N)) (h : heap) (s : sobj) : heap :=
  match s_partial s with Some a => write h a (Rows (f (rows h a))) | None => h end.

(** rt_ensemble.py 344-352: [*=] and [+=]. *)
Definition scale_in_place (lr : N) (detailed : bool) (h : heap) (s : sobj) : heap :=
  if neqb lr none then h
  else
    let h1 := update_y (map (fun v => nf32 (nmul v lr))) h s in
    if detailed then update_partial (map (map (fun v => nf32 (nmul v lr)))) h1 s else h1.
Definition shift_in_place (base : option N) (detailed : bool) (h : heap) (s : sobj) : heap :=
  match truthy base with
  | None => h
  | Some b =>
      let h1 := update_y (map (fun v => nf32 (nadd v b))) h s in
      if detailed then update_partial (map (add_first b)) h1 s else h1
  end.

(** What score returns: the arrays themselves, not copies. *)
Inductive harray : Type :=
| HBasic (y : option addr)
| HDetailed (y p l : option addr).
Definition harray_of (detailed : bool) (s : sobj) : harray :=
  if detailed then HDetailed (s_y s) (s_partial s) (s_leaves s) else HBasic (s_y s).

(** What a client sees in them. *)
Definition seen (h : heap) (r : harray) : answer (N:=N) :=
  match r with
  | HBasic y => Basic (option_map (floats h) y)
  | HDetailed y p l => Detailed (option_map (floats h) y) (option_map (rows h) p) (option_map (int_rows h) l)
  end.

(** rt_ensemble.py 338-352: a new Scorer, stored in the cache, filled, adjusted in place. *)
Definition score_fresh (st : state) (m d : nat) (z : Z) (detailed cache : bool) : state * res harray :=
  let mo := mobj_at st m in
  let sid := length (scs st) in
  match (if cache then cache_insert st (o_cache mo) d z sid else Ok (o_cache mo)) with
  | Err e => (st, Err e)
  | Ok c =>
      let st1 := set_cache (mkState (mem st) (dss st) (scs st ++ [empty_sobj]) (mos st)) m c in
      match fill (mem st1) (ensemble_of (mem st1) mo) (ds_X (dataset_at st1 d)) detailed with
      | Err e => (st1, Err e)
      | Ok (h, s) =>
          let h1 := scale_in_place (o_lr mo) detailed h s in
          let h2 := shift_in_place (o_base mo) detailed h1 s in
          (mkState h2 (dss st1) (upd (scs st1) sid s) (mos st1), Ok (harray_of detailed s))
      end
  end.

(** rt_ensemble.py 297-359: score.  The features are checked first; looking the data set up
    hashes it. *)
Definition heap_score (st : state) (m d : nat) (detailed cache : bool) : state * res harray :=
  let mo := mobj_at st m in
  match check_features (ensemble_of (mem st) mo) (dataset_at st d) with
  | Err e => (st, Err e)
  | Ok _ =>
      let '(st1, z) := hash_of st d in
      match cache_lookup st1 (o_cache mo) d z with
      | Err e => (st1, Err e)
      | Ok found =>
          match (match found with
                 | None => None
                 | Some i => let s := nth i (scs st1) empty_sobj in
                             if detailed && negb (is_some (s_partial s)) then None else Some s
                 end) with
          | Some s => (st1, Ok (harray_of detailed s))
          | None => score_fresh st1 m d z detailed cache
          end
      end
  end.

(** rt_ensemble.py 361-368. *)
Definition heap_clear (st : state) (m : nat) : state := set_cache st m [].

(** deepcopy of a cached data set and of its scorer: all the arrays are copied, the cached
    hash is an integer and is kept. *)
Definition copy_dobj (st : state) (d : nat) : state :=
  let o := nth d (dss st) no_dobj in
  let v := dataset_of (mem st) o in
  let '(h1, X) := alloc (mem st) (Rows (ds_X v)) in
  let '(h2, y) := alloc h1 (Floats (ds_y v)) in
  let '(h3, q) := alloc h2 (Ints (ds_qids v)) in
  let '(h4, f) := alloc h3 (Ints (map Z.of_nat (ds_offs v))) in
  mkState h4 (dss st ++ [mkDobj X y q f (ds_nf v) (d_hash o)]) (scs st) (mos st).
Definition copy_opt (h : heap) (b : addr -> buffer) (o : option addr) : heap * option addr :=
  match o with None => (h, None) | Some a => (h ++ [b a], Some (length h)) end.
Definition copy_sobj (st : state) (s : nat) : state :=
  let o := nth s (scs st) empty_sobj in
  let '(h1, y) := copy_opt (mem st) (fun a => Floats (floats (mem st) a)) (s_y o) in
  let '(h2, p) := copy_opt h1 (fun a => Rows (rows (mem st) a)) (s_partial o) in
  let '(h3, l) := copy_opt h2 (fun a => IntRows (int_rows (mem st) a)) (s_leaves o) in
  mkState h3 (dss st) (scs st ++ [mkSobj y p l]) (mos st).
Fixpoint copy_cache (st : state) (c : list (nat * Z * nat)) : state * list (nat * Z * nat) :=
  match c with
  | [] => (st, [])
  | (k, z, s) :: c' =>
      let st1 := copy_sobj (copy_dobj st k) s in
      let '(st2, r) := copy_cache st1 c' in
      (st2, (length (dss st), z, length (scs st)) :: r)
  end.

(** rt_ensemble.py 404-421: the arrays of the pruned model are slices of the old ones. *)
Definition slice_view {A} (n : Z) (l : list A) (v : view) : view :=
  mkView (v_at v) (length (slice_to n l)).
Definition prune_mobj (h : heap) (m : mobj) (n : Z) : res mobj :=
  if o_ntrees m <=? n then Ok m
  else
    do s <- py_get (view_ints h (o_root m)) n;
    Ok (mkMobj n s
          (slice_view n (view_ints h (o_root m)) (o_root m))
          (slice_view n (view_floats h (o_weight m)) (o_weight m))
          (slice_view s (view_ints h (o_left m)) (o_left m))
          (slice_view s (view_ints h (o_right m)) (o_right m))
          (slice_view s (view_floats h (o_value m)) (o_value m))
          (slice_view s (view_ints h (o_feature m)) (o_feature m))
          (o_lr m) (o_base m) []).

(** rt_ensemble.py 370-389: copy, i.e. deepcopy (of the cache too), then pruning. *)
Definition heap_copy (st : state) (m : nat) (n : option Z) : state * res unit :=
  let mo := mobj_at st m in
  let '(st1, c) := copy_cache st (o_cache mo) in
  let st2 := install_model st1 (ensemble_of (mem st) mo) (o_lr mo) (o_base mo) c in
  match n with
  | None => (st2, Ok tt)
  | Some n =>
      let j := length (mos st) in
      match prune_mobj (mem st2) (mobj_at st2 j) n with
      | Err e => (mkState (mem st2) (dss st2) (scs st2) (mos st), Err e)
      | Ok mo' => (mkState (mem st2) (dss st2) (scs st2) (upd (mos st2) j mo'), Ok tt)
      end
  end.

(** ** Clients *)

(** What a client can do: make an array, write into one, and call the library. *)
Inductive action : Type :=
| NewArray (b : buffer)
| WriteArray (a : addr) (b : buffer)
| NewDataset (nf : nat) (X y ids : addr)
| Subset (d : nat) (qids : list Z)
| SubsetFeatures (d : nat) (features : list Z)
| Split (d : nat) (train vali : Q) (perm : list Z)
| KFold (d : nat) (n_folds : nat) (qids : list Z)
| LoadModel (e : ensemble N) (lr : N) (base : option N)
| Score (m d : nat) (detailed cache : bool)
| Clear (m : nat)
| Copy (m : nat) (n : option Z).

Definition step (st : state) (a : action) : state :=
  match a with
  | NewArray b => mkState (fst (alloc (mem st) b)) (dss st) (scs st) (mos st)
  | WriteArray a b => mkState (write (mem st) a b) (dss st) (scs st) (mos st)
  | NewDataset nf X y ids => fst (make_dataset st nf X y ids)
  | Subset d qids => fst (heap_subset st d qids)
  | SubsetFeatures d features => fst (heap_subset_features st d features)
  | Split d train vali perm => fst (heap_split st d train vali perm)
  | KFold d n_folds qids => fst (heap_kfold st d n_folds qids)
  | LoadModel e lr base => install_model st e lr base []
  | Score m d detailed cache => fst (heap_score st m d detailed cache)
  | Clear m => heap_clear st m
  | Copy m n => fst (heap_copy st m n)
  end.
Definition run (st : state) (p : list action) : state := fold_left step p st.
Definition start : state := mkState [] [] [] [].
End Heap.
Arguments buffer : clear implicits.
Arguments heap : clear implicits.
Arguments mobj : clear implicits.
Arguments state : clear implicits.
Arguments action : clear implicits.
