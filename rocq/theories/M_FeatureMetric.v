(** Model of the branch of feature_importance (analysis/feature.py 68-83) taken when the metric is
    neither MSE nor RMSE, and of _feature_importance_tree (93-212) in that branch.

    A metric is a function of the data set and the scores (M_MetricObjects.v has metrics with state).
    y_pred, y_target and the level predictions are float64 arrays; y_pred_mod and feature_imp are
    float32 arrays: what is stored in them is rounded by [nf32].  [sum] is the sum inside
    np.mean, in whatever order NumPy adds. *)
From Coq Require Import List ZArith Bool.
From Verif Require Import Base Num M_Dataset M_Ensemble M_Effectiveness.
Import ListNotations.
Local Open Scope Z_scope.

Section FeatureMetric.
Context {N : num}.
Variable sum : list N -> N.

(** Element-wise operation on two arrays of the same length. *)
Definition vec (op : N -> N -> N) (a b : list N) : list N := map (fun p => op (fst p) (snd p)) (combine a b).

(** y_pred_tree_depth, feature_imp, feature_count. *)
Record mstate : Type := mkM { ms_levels : list (list N); ms_imp : list N; ms_cnt : list Z }.
(** node_id, depth, doc_list. *)
Definition mitem : Type := Z * nat * option (list Z).

(** Lines 172-176: a[docs] = y_target[docs].mean(), unless docs is empty. *)
Definition set_mean (y_target : list N) (docs : list Z) (a : list N) : res (list N) :=
  match docs with
  | [] => Ok a
  | _ => do vs <- mapM (py_get y_target) docs;
         foldM (fun a i => py_set a i (nf32 (ndiv (sum vs) (nofnat (length vs))))) docs a
  end.

(** Lines 149-200: one node.  The new state and the nodes appended.  (a[None] = b[None] copies
    the whole array.) *)
Definition metric_visit (e : ensemble N) (d : dataset N) (metric : evaluator (N:=N)) (y_target y_pred : list N) (s : mstate) (q : mitem)
    : res (mstate * list mitem) :=
  let '(node, depth, docs) := q in
  do f <- py_get (e_feature e) node;
  do thr <- py_get (e_value e) node;
  do c <- py_get (ms_cnt s) f;
  do cnt <- py_set (ms_cnt s) f (wrap_u 16 (c + 1));
  let M := match docs with Some M => M | None => zrange 0 (Z.of_nat (length (ds_X d))) end in
  do xs <- mapM (fun i => do row <- py_get (ds_X d) i; py_get row f) M;
  let left := map fst (filter (fun p => nleb (snd p) thr) (combine M xs)) in
  let right := map fst (filter (fun p => nltb thr (snd p)) (combine M xs)) in
  do parent <- of_option IndexError (nth_error (ms_levels s) depth);
  let mod0 := map nf32 parent in
  do pre <- metric d (vec nadd mod0 y_pred);
  do mod1 <- set_mean y_target left mod0;
  do mod2 <- set_mean y_target right mod1;
  let levels := if (length (ms_levels s) - 1 <? depth + 1)%nat then ms_levels s ++ [parent] else ms_levels s in
  do next <- of_option IndexError (nth_error levels (depth + 1));
  do next' <- match docs with
              | Some M => foldM (fun a i => do v <- py_get mod2 i; py_set a i v) M next
              | None => Ok mod2
              end;
  do post <- metric d (vec nadd mod2 y_pred);
  do w <- py_get (ms_imp s) f;
  do imp <- py_set (ms_imp s) f (nf32 (nadd w (nsub (fst pre) (fst post))));
  do l <- py_get (e_left e) node;
  do ll <- is_leaf_node e l;
  do r <- py_get (e_right e) node;
  do rl <- is_leaf_node e r;
  Ok (mkM (upd levels (depth + 1) next') imp cnt,
      (if ll then [] else [(l, (depth + 1)%nat, Some left)]) ++ (if rl then [] else [(r, (depth + 1)%nat, Some right)])).

(** Lines 148-200: the queue; popleft and append. *)
Fixpoint metric_visits (fuel : nat) (e : ensemble N) (d : dataset N) (metric : evaluator (N:=N)) (y_target y_pred : list N) (s : mstate) (queue : list mitem)
    : res mstate :=
  match queue with
  | [] => Ok s
  | q :: rest =>
      match fuel with
      | O => Err Diverge
      | S fuel' => do r <- metric_visit e d metric y_target y_pred s q; metric_visits fuel' e d metric y_target y_pred (fst r) (rest ++ snd r)
      end
  end.

(** Lines 124-212: _feature_importance_tree; the new feature_imp, feature_count and y_pred.  Without
    instances the mean is NaN, but nothing is filled with it. *)
Definition metric_tree (e : ensemble N) (d : dataset N) (metric : evaluator (N:=N)) (s : list N * list Z * list N) (tree : Z) : res (list N * list Z * list N) :=
  let '(imp, cnt, y_pred) := s in
  let y_target := vec nsub (ds_y d) y_pred in
  let mean := ndiv (sum y_target) (nofnat (length y_target)) in
  do root <- py_get (e_root e) tree;
  do s <- metric_visits (S (length (e_left e))) e d metric y_target y_pred (mkM [repeat mean (n_instances d)] imp cnt) [(root, 0%nat, None)];
  do w <- py_get (e_weight e) tree;
  Ok (ms_imp s, ms_cnt s, vec nadd y_pred (map (fun v => nmul v w) (last (ms_levels s) []))).

(** Lines 68-86. *)
Definition metric_importance (e : ensemble N) (d : dataset N) (metric : evaluator (N:=N)) (normalize : bool) : res (list N * list Z) :=
  do s <- foldM (metric_tree e d metric) (zrange 0 (e_ntrees e))
                (repeat nzero (ds_nf d), repeat 0 (ds_nf d), repeat nzero (n_instances d));
  do imp <- (if normalize then do m <- nmax (fst (fst s)); Ok (map (fun a => nf32 (ndiv a m)) (fst (fst s))) else Ok (fst (fst s)));
  Ok (imp, snd (fst s)).
End FeatureMetric.
