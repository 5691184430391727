(** Model of rankeval/model/rt_ensemble.py (class RTEnsemble) and of
    rankeval/scoring/_efficient_scoring.pyx, rankeval/scoring/scorer.py.

    Simplifications: file names and the constructor's dispatch on the format are
    dropped (see the M_ files of the loaders); arrays are lists, an int16/int32 cell
    is an integer (overflow when a loader stores into it is discussed there);
    Python's recursion limit is not modelled (height_trees); the arrays returned to
    the caller are values (sharing and in-place writes: M_Heap.v); the sequential
    order of the parallel loops is in this file, their interleavings in M_Parallel.v;
    the compiler does not contract the multiplication and addition of line 62 of
    _efficient_scoring.pyx into a fused one. *)
From Coq Require Import List ZArith Bool.
From Verif Require Import Base Num M_Dataset M_NDCG.
Import ListNotations.
Local Open Scope Z_scope.

Section Ensemble.
Context {N : num}.

(** rt_ensemble.py 113-122: the arrays. *)
Record ensemble : Type := mkEns {
  e_ntrees : Z;
  e_nnodes : Z;
  e_root : list Z;
  e_weight : list N;
  e_left : list Z;
  e_right : list Z;
  e_value : list N;
  e_feature : list Z
}.

(** rt_ensemble.py 157-170: initialize (np.full raises ValueError on a negative shape). *)
Definition minus_one : N := nofZ (-1).
Definition initialize (n_trees n_nodes : Z) : res ensemble :=
  if (n_trees <? 0) || (n_nodes <? 0) then Err ValueError
  else
    let t := Z.to_nat n_trees in let n := Z.to_nat n_nodes in
    Ok (mkEns n_trees n_nodes (repeat (-1) t) (repeat nzero t)
              (repeat (-1) n) (repeat (-1) n) (repeat minus_one n) (repeat (-1) n)).

(** rt_ensemble.py 182-183: is_leaf_node. *)
Definition is_leaf_node (e : ensemble) (i : Z) : res bool :=
  do l <- py_get (e_left e) i;
  if l =? -1 then do r <- py_get (e_right e) i; Ok (r =? -1) else Ok false.

(** rt_ensemble.py 206-215 and 227-236: the slice of nodes of tree [t]. *)
Definition tree_bounds (e : ensemble) (t : Z) : res (Z * Z) :=
  do a <- py_get (e_root e) t;
  do b <- (if t + 1 =? e_ntrees e then Ok (e_nnodes e) else py_get (e_root e) (t + 1));
  Ok (a, b).

(** rt_ensemble.py 197-217: num_leaves. *)
Definition num_leaves (e : ensemble) : res (list Z) :=
  if e_ntrees e <? 0 then Err ValueError else
  mapM (fun t => do ab <- tree_bounds e t;
                 Ok (Z.of_nat (length (filter (fun l => l =? -1) (slice (fst ab) (snd ab) (e_left e))))))
       (zrange 0 (e_ntrees e)).

(** rt_ensemble.py 185-195: max_leaves (max of an empty array is a ValueError). *)
Definition max_leaves (e : ensemble) : res Z :=
  do l <- num_leaves e;
  match l with [] => Err ValueError | x :: r => Ok (fold_left Z.max r x) end.

(** rt_ensemble.py 219-238: num_nodes. *)
Definition num_nodes (e : ensemble) : res (list Z) :=
  if e_ntrees e <? 0 then Err ValueError else
  mapM (fun t => do ab <- tree_bounds e t; Ok (snd ab - fst ab)) (zrange 0 (e_ntrees e)).

(** rt_ensemble.py 248-257: height_node. *)
Fixpoint height_node (fuel : nat) (e : ensemble) (i depth : Z) : res Z :=
  match fuel with
  | O => Err Diverge
  | S f =>
      do l <- py_get (e_left e) i;
      if l =? -1 then Ok depth
      else
        do r <- py_get (e_right e) i;
        do a <- height_node f e l (depth + 1);
        do b <- height_node f e r (depth + 1);
        Ok (Z.max a b)
  end.

(** rt_ensemble.py 240-263: height_trees. *)
Definition height_trees (e : ensemble) : res (list Z) :=
  if e_ntrees e <? 0 then Err ValueError else
  mapM (fun t => do r <- py_get (e_root e) t; height_node (S (length (e_left e))) e r 0)
       (zrange 0 (e_ntrees e)).

(** ** _efficient_scoring.pyx *)

(** Lines 107-134: _score_single_instance_single_tree.  The walk visits a node twice only
    if it never ends, hence the fuel. *)
Fixpoint walk (fuel : nat) (e : ensemble) (row : list N) (cur : Z) : res Z :=
  match fuel with
  | O => Err Diverge
  | S f =>
      do l <- mem_get (e_left e) cur;
      if l =? -1 then Ok cur
      else
        do r <- mem_get (e_right e) cur;
        if r =? -1 then Ok cur
        else
          do feat <- mem_get (e_feature e) cur;
          do thr <- mem_get (e_value e) cur;
          do x <- mem_get row feat;
          walk f e row (if nleb x thr then l else r)
  end.
Definition exit_node (e : ensemble) (row : list N) (t : Z) : res Z :=
  do r <- mem_get (e_root e) t;
  walk (S (length (e_left e))) e row r.

(** Lines 62-63 and 102-103: value of the leaf times the weight of the tree (float32). *)
Definition leaf_score (e : ensemble) (t leaf : Z) : res N :=
  do v <- mem_get (e_value e) leaf;
  do w <- mem_get (e_weight e) t;
  Ok (nf32 (nmul v w)).

(** Lines 49-63: the score of one instance, [y += value * weight] in float32. *)
Definition score_instance (e : ensemble) (row : list N) : res N :=
  foldM (fun y t => do leaf <- exit_node e row t;
                    do s <- leaf_score e t leaf;
                    Ok (nf32 (nadd y s)))
        (zrange 0 (e_ntrees e)) nzero.

(** Lines 28-64: basic_scoring. *)
Definition basic_scoring (e : ensemble) (X : list (list N)) : res (list N) :=
  mapM (score_instance e) X.

(** Lines 66-105: detailed_scoring: the leaf and the score of each (instance, tree). *)
Definition detail_instance (e : ensemble) (row : list N) : res (list (Z * N)) :=
  mapM (fun t => do leaf <- exit_node e row t;
                 do s <- leaf_score e t leaf;
                 Ok (leaf, s))
       (zrange 0 (e_ntrees e)).
Definition detailed_scoring (e : ensemble) (X : list (list N)) : res (list (list Z) * list (list N)) :=
  if e_ntrees e <? 0 then Err ValueError else
  do m <- mapM (detail_instance e) X;
  Ok (map (map fst) m, map (map snd) m).

(** ** scorer.py *)

(** scorer.py 45-58: the attributes y_pred, partial_y_pred, out_leaves. *)
Record scorer : Type := mkScorer {
  sc_y : option (list N);
  sc_partial : option (list (list N));
  sc_leaves : option (list (list Z))
}.
Definition new_scorer : scorer := mkScorer None None None.

(** Sum of a row of a float32 matrix ([sum(axis=1)]): NumPy does not specify the order of
    additions, hence a parameter. *)
Variable rowsum : list N -> N.

Definition is_some {A} (o : option A) : bool := match o with Some _ => true | None => false end.

(** scorer.py 60-91: Scorer.score; the new state and y_pred. *)
Definition scorer_score (e : ensemble) (X : list (list N)) (s : scorer) (detailed : bool)
  : res (scorer * option (list N)) :=
  if (negb detailed && is_some (sc_y s)) || (detailed && is_some (sc_leaves s)) then Ok (s, sc_y s)
  else if detailed then
    do lp <- detailed_scoring e X;
    let y := map rowsum (snd lp) in
    Ok (mkScorer (Some y) (Some (snd lp)) (Some (fst lp)), Some y)
  else
    do y <- basic_scoring e X;
    Ok (mkScorer (Some y) (sc_partial s) (sc_leaves s), Some y).

(** scorer.py 93-104 and 106-124: the two accessors that work. *)
Definition get_predicted_scores (e : ensemble) (X : list (list N)) (s : scorer)
  : res (scorer * option (list N)) :=
  match sc_y s with
  | Some y => Ok (s, Some y)
  | None => do r <- scorer_score e X s false; Ok (fst r, sc_y (fst r))
  end.
Definition get_partial_predicted_scores (e : ensemble) (X : list (list N)) (s : scorer)
  : res (scorer * option (list (list N))) :=
  match sc_partial s with
  | Some p => Ok (s, Some p)
  | None => do r <- scorer_score e X s true; Ok (fst r, sc_partial (fst r))
  end.
(** scorer.py 126-144: [self.self] does not exist. *)
Definition get_predicted_leaves (s : scorer) : res (list (list Z)) := Err AttributeError.

(** ** RTEnsemble.score *)
Variable digest : list (list N) -> list N -> list Z -> Z.

(** rt_ensemble.py 103-124: learning_rate, base_score, _cache_scorer. *)
Record model : Type := mkModel {
  m_ens : ensemble;
  m_lr : N;
  m_base : option N;
  m_cache : list (obj (N:=N) * scorer)
}.

Fixpoint scorer_find (c : list (obj (N:=N) * scorer)) (o : obj) : res (option scorer) :=
  match c with
  | [] => Ok None
  | (k, s) :: c' => do b <- key_eq digest k o; if b then Ok (Some s) else scorer_find c' o
  end.

(** [self._cache_scorer[dataset] = scorer]: an existing key keeps its place (and its key). *)
Fixpoint scorer_store (c : list (obj (N:=N) * scorer)) (o : obj) (s : scorer)
  : res (list (obj (N:=N) * scorer)) :=
  match c with
  | [] => Ok [(o, s)]
  | (k, s') :: c' =>
      do b <- key_eq digest k o;
      if b then Ok ((k, s) :: c') else do r <- scorer_store c' o s; Ok ((k, s') :: r)
  end.

(** [if self.base_score]: None and 0 are false. *)
Definition truthy (b : option N) : option N :=
  match b with Some v => if neqb v nzero then None else Some v | None => None end.

(** Rows of a matrix with [b] added to the first column ([m[:, :1] += b]). *)
Definition add_first (b : N) (row : list N) : list N :=
  match row with [] => [] | x :: r => nf32 (nadd x b) :: r end.

(** rt_ensemble.py 346-354: learning rate and base score, applied in place. *)
Definition adjust (m : model) (detailed : bool) (s : scorer) : scorer :=
  let s1 := if neqb (m_lr m) none then s
            else mkScorer (option_map (map (fun v => nf32 (nmul v (m_lr m)))) (sc_y s))
                          (if detailed then option_map (map (map (fun v => nf32 (nmul v (m_lr m))))) (sc_partial s)
                           else sc_partial s)
                          (sc_leaves s) in
  match truthy (m_base m) with
  | None => s1
  | Some b => mkScorer (option_map (map (fun v => nf32 (nadd v b))) (sc_y s1))
                       (if detailed then option_map (map (add_first b)) (sc_partial s1) else sc_partial s1)
                       (sc_leaves s1)
  end.

(** What score returns: y_pred alone or with partial_y_pred and out_leaves. *)
Inductive answer : Type :=
| Basic (y : option (list N))
| Detailed (y : option (list N)) (p : option (list (list N))) (l : option (list (list Z))).
Definition answer_of (detailed : bool) (s : scorer) : answer :=
  if detailed then Detailed (sc_y s) (sc_partial s) (sc_leaves s) else Basic (sc_y s).

(** np.max of the feature array, ValueError when it is empty. *)
Definition max_feature (e : ensemble) : res Z :=
  match e_feature e with [] => Err ValueError | x :: r => Ok (fold_left Z.max r x) end.

(** rt_ensemble.py 331-333: the check on the features. *)
Definition check_features (e : ensemble) (d : dataset N) : res unit :=
  do m <- max_feature e;
  if Z.of_nat (ds_nf d) <? m + 1 then Err RuntimeError else Ok tt.

(** rt_ensemble.py 297-361: score.  The scorer is stored (341) before it is filled and
    adjusted in place: when scoring raises, an empty scorer stays in the cache. *)
Definition score (m : model) (o : obj) (detailed cache : bool) : model * res answer :=
  match (do _ <- check_features (m_ens m) (snd o); scorer_find (m_cache m) o) with
  | Err e => (m, Err e)
  | Ok found =>
      match (match found with
             | None => None
             | Some s => if detailed && negb (is_some (sc_partial s)) then None else Some s
             end) with
      | Some s => (m, Ok (answer_of detailed s))
      | None =>
          let with_scorer s :=
            if cache then do c <- scorer_store (m_cache m) o s; Ok (mkModel (m_ens m) (m_lr m) (m_base m) c)
            else Ok m in
          match with_scorer new_scorer with
          | Err e => (m, Err e)
          | Ok m1 =>
              match scorer_score (m_ens m) (ds_X (snd o)) new_scorer detailed with
              | Err e => (m1, Err e)
              | Ok (s, _) =>
                  let s' := adjust m detailed s in
                  match with_scorer s' with
                  | Err e => (m1, Err e)
                  | Ok m2 => (m2, Ok (answer_of detailed s'))
                  end
              end
          end
      end
  end.

(** rt_ensemble.py 363-370: clear_cache. *)
Definition clear_cache (m : model) : model := mkModel (m_ens m) (m_lr m) (m_base m) [].

(** ** Pruning *)

(** rt_ensemble.py 393-421: _prune_model on the arrays. *)
Definition prune_arrays (e : ensemble) (n : Z) : res ensemble :=
  do s <- py_get (e_root e) n;
  Ok (mkEns n s (slice_to n (e_root e)) (slice_to n (e_weight e)) (slice_to s (e_left e))
            (slice_to s (e_right e)) (slice_to s (e_value e)) (slice_to s (e_feature e))).
Definition prune_model (m : model) (n : Z) : res model :=
  if e_ntrees (m_ens m) <=? n then Ok m
  else do e <- prune_arrays (m_ens m) n; Ok (mkModel e (m_lr m) (m_base m) []).

(** rt_ensemble.py 372-391: copy (deepcopy, then pruning).  The cache is copied too (the
    copied keys keep their identity in the model). *)
Definition copy (m : model) (n : option Z) : res model :=
  match n with None => Ok m | Some n => prune_model m n end.
(** rt_ensemble.py 147-148: the n_trees argument of the constructor. *)
Definition limit_trees (m : model) (n : option Z) : res model :=
  match n with
  | None => Ok m
  | Some n => if n <? e_ntrees (m_ens m) then prune_model m n else Ok m
  end.

(** A history of calls on one model. *)
Inductive scall : Type :=
| CallScore (o : obj (N:=N)) (detailed cache : bool)
| CallClear.
Definition score_step (m : model) (c : scall) : model :=
  match c with
  | CallScore o detailed cache => fst (score m o detailed cache)
  | CallClear => clear_cache m
  end.
Definition score_after (m : model) (h : list scall) : model := fold_left score_step h m.
End Ensemble.
Arguments ensemble : clear implicits.
Arguments model : clear implicits.
Arguments scorer : clear implicits.
