(** Metrics as objects with state, and the analyses as programs that call them.

    M_Effectiveness.v, M_Statistical.v and M_FeatureMetric.v take metrics as functions.  In Python
    they are objects, shared by all the calls of all the analyses, and NDCG keeps the ideal DCGs of
    the data sets it has seen (M_NDCG.v).  Here an analysis is a program whose only access to the
    metrics is [Ask]: metric.eval on an object of the store.  An exception of eval ends the
    program (no analysis catches exceptions), but the state of the metrics stays.
    The analyses cite the lines given in the three files above. *)
From Coq Require Import List ZArith Bool.
From Verif Require Import Base Num M_Dataset M_Metrics M_NDCG M_Ensemble M_Effectiveness M_FeatureMetric M_Statistical.
Import ListNotations.
Local Open Scope Z_scope.

Section Programs.
Context {N : num}.

Inductive prog (A : Type) : Type :=
| Ret (r : res A)
| Ask (j : nat) (o : obj (N:=N)) (s : list N) (k : N * list N -> prog A).
Arguments Ret {A}. Arguments Ask {A}.

Fixpoint pbind {A B} (p : prog A) (f : A -> prog B) : prog B :=
  match p with
  | Ret (Ok a) => f a
  | Ret (Err e) => Ret (Err e)
  | Ask j o s k => Ask j o s (fun v => pbind (k v) f)
  end.
Definition ask (j : nat) (o : obj (N:=N)) (s : list N) : prog (N * list N) := Ask j o s (fun v => Ret (Ok v)).
Definition lift {A} (r : res A) : prog A := Ret r.
Definition ret {A} (a : A) : prog A := Ret (Ok a).

Fixpoint pmap {A B} (f : A -> prog B) (l : list A) : prog (list B) :=
  match l with
  | [] => ret []
  | x :: l' => pbind (f x) (fun y => pbind (pmap f l') (fun ys => ret (y :: ys)))
  end.
Fixpoint pfold {A B} (f : B -> A -> prog B) (l : list A) (b : B) : prog B :=
  match l with
  | [] => ret b
  | x :: l' => pbind (f b x) (fun b' => pfold f l' b')
  end.
Fixpoint pmapST {S A B} (f : S -> A -> prog (S * B)) (s : S) (l : list A) : prog (S * list B) :=
  match l with
  | [] => ret (s, [])
  | a :: l' => pbind (f s a) (fun r => pbind (pmapST f (fst r) l') (fun rs => ret (fst rs, snd r :: snd rs)))
  end.

(** ** Two ways to run a program *)
(** With metrics that are functions. *)
Fixpoint run_functions {A} (fs : list (evaluator (N:=N))) (p : prog A) : res A :=
  match p with
  | Ret r => r
  | Ask j o s k => do f <- of_option IndexError (nth_error fs j); do v <- f (snd o) s; run_functions fs (k v)
  end.

(** With metric objects. *)
Inductive mobj : Type :=
| Plain (f : evaluator (N:=N))
| Ndcg (norel : N) (g : gain_kind) (cutoff : option Z) (st : nstate (N:=N)).

Variable argsort : list N -> list nat.
Variable digest : list (list N) -> list N -> list Z -> Z.

Definition eval_object (m : mobj) (o : obj (N:=N)) (s : list N) : mobj * res (N * list N) :=
  match m with
  | Plain f => (m, f (snd o) s)
  | Ndcg r g c st => let '(st', v) := ndcg_eval argsort digest r g c st o s in (Ndcg r g c st', v)
  end.
(** eval_per_query called by the client, between the analyses. *)
Definition per_query_object (m : mobj) (y s : list N) : mobj :=
  match m with
  | Plain f => m
  | Ndcg r g c st => Ndcg r g c (fst (ndcg_per_query argsort digest r g c st y s))
  end.

Fixpoint run_objects {A} (ms : list mobj) (p : prog A) : list mobj * res A :=
  match p with
  | Ret r => (ms, r)
  | Ask j o s k =>
      match nth_error ms j with
      | None => (ms, Err IndexError)
      | Some m => let '(m', r) := eval_object m o s in
                  match r with
                  | Err e => (upd ms j m', Err e)
                  | Ok v => run_objects (upd ms j m') (k v)
                  end
      end
  end.

(** What a client did before: analyses (whatever they computed) and direct calls. *)
Inductive action : Type :=
| Analysis (A : Type) (p : prog A)
| PerQuery (j : nat) (y s : list N).
Definition act (ms : list mobj) (a : action) : list mobj :=
  match a with
  | Analysis A p => fst (run_objects ms p)
  | PerQuery j y s => match nth_error ms j with None => ms | Some m => upd ms j (per_query_object m y s) end
  end.
Definition after_actions (ms : list mobj) (h : list action) : list mobj := fold_left act h ms.

(** ** The analyses *)
Variable rowsum : list N -> N.

(** effectiveness.py 64-78. *)
Definition p_model_performance (st : list (model N)) (ds : list (obj (N:=N))) (ms : list nat) (metrics : list nat) (cache : bool) :=
  pmapST (fun st o =>
    pmapST (fun st i =>
      pbind (lift (score_in rowsum digest st i o false cache)) (fun r =>
      pbind (lift (y_pred (snd r))) (fun y =>
      pbind (pmap (fun j => pbind (ask j o y) (fun v => ret (nf32 (fst v)))) metrics) (fun row =>
      ret (fst r, row))))) st ms) st ds.

(** effectiveness.py 147-164. *)
Definition p_steps_of_model (o : obj (N:=N)) (parts : list (list N)) (metrics : list nat) (step : Z) (own : list Z) :=
  pbind (pmapST (fun y p =>
            pbind (lift (add_trees rowsum y parts (fst p * step) (snd p + 1))) (fun y' =>
            pbind (pmap (fun j => pbind (ask j o y') (fun v => ret (nf32 (fst v)))) metrics) (fun row =>
            ret (y', row))))
          (repeat nzero (n_instances (snd o))) (combine (zrange 0 (Z.of_nat (length own))) own)) (fun r =>
  ret (snd r)).
(** effectiveness.py 122-174. *)
Definition p_tree_wise_performance (st : list (model N)) (ds : list (obj (N:=N))) (ms : list nat) (metrics : list nat) (step : Z) (cache : bool) :=
  pbind (lift (max_num_trees st ms)) (fun mx =>
  pbind (lift (tree_steps step mx)) (fun steps =>
  pbind (pmapST (fun st o =>
    pmapST (fun st i =>
      pbind (lift (score_in rowsum digest st i o true cache)) (fun r =>
      pbind (lift (partial_y_pred (snd r))) (fun parts =>
      pbind (lift (n_trees_of st i)) (fun n =>
      pbind (lift (tree_steps step n)) (fun own =>
      pbind (p_steps_of_model o parts metrics step own) (fun rows =>
      if (length steps <? length rows)%nat then lift (Err IndexError)
      else ret (fst r, map Some rows ++ repeat None (length steps - length rows)))))))) st ms) st ds) (fun r =>
  ret (fst r, (map (fun k => k + 1) steps, snd r))))).

(** effectiveness.py 271-282, 352-360. *)
Definition p_query_scores (st : list (model N)) (ds : list (obj (N:=N))) (ms : list nat) (metrics : list nat) (cache : bool) :=
  pmapST (fun st o =>
    pmapST (fun st i =>
      pbind (lift (score_in rowsum digest st i o false cache)) (fun r =>
      pbind (lift (y_pred (snd r))) (fun y =>
      pbind (pmap (fun j => pbind (ask j o y) (fun v => ret (snd v))) metrics) (fun row =>
      ret (fst r, row))))) st ms) st ds.
(** effectiveness.py 271-312. *)
Definition p_query_wise_performance (st : list (model N)) (ds : list (obj (N:=N))) (ms : list nat) (metrics : list nat)
    (bins : option Z) (start stop : option N) (cache : bool) :=
  pbind (p_query_scores st ds ms metrics cache) (fun r => lift (
  do _ <- mapM (fun a => nmin a) (concat (concat (snd r)));
  do b <- (match bins with
           | Some b => Ok b
           | None => match map (fun o => Z.of_nat (n_queries (snd o))) ds with [] => Err ValueError | x :: xs => Ok (fold_left Z.max xs x) end
           end);
  do edges <- edges_of (concat (concat (concat (snd r)))) b start stop;
  do data <- mapM (fun pd => mapM (fun pm => mapM (fun a => cumulative a edges) pm) pd) (snd r);
  do c <- bin_coordinates edges b (match bins with None => true | Some _ => false end);
  Ok (fst r, (c, data)))).
(** effectiveness.py 352-389. *)
Definition p_query_class_performance (st : list (model N)) (ds : list (obj (N:=N))) (ms : list nat) (metrics : list nat)
    (classes : list (list Z)) (cache : bool) :=
  pbind (p_query_scores st ds ms metrics cache) (fun r => lift (
  let all := unique (concat (map unique classes)) in
  do data <- mapM (fun p => mapM (fun pm => mapM (fun scores => mapM (fun c => do cls <- py_get classes (fst p); class_mean scores cls c) all) pm) (snd p))
                  (combine (zrange 0 (Z.of_nat (length (snd r)))) (snd r));
  Ok (fst r, (all, data)))).

Variable sum : list N -> N.
(** statistical.py 35-96. *)
Definition p_statistical_significance (choice : nat -> nat -> nat -> nat -> bool) (st : list (model N)) (ds : list (obj (N:=N)))
    (model_a model_b : nat) (metrics : list nat) (n_perm : Z) (cache : bool) :=
  pmapST (fun st o =>
    pbind (lift (score_in rowsum digest st model_a (snd o) false cache)) (fun ra =>
    pbind (lift (y_pred (snd ra))) (fun ya =>
    pbind (lift (score_in rowsum digest (fst ra) model_b (snd o) false cache)) (fun rb =>
    pbind (lift (y_pred (snd rb))) (fun yb =>
    pbind (pmap (fun f : nat * nat =>
        pbind (ask (snd f) (snd o) ya) (fun va =>
        pbind (ask (snd f) (snd o) yb) (fun vb =>
        pbind (lift (randomization sum (choice (fst o) (fst f)) (snd va) (snd vb) n_perm)) (fun p =>
        ret (nf32 (fst p), nf32 (snd p)))))) (combine (seq 0 (length metrics)) metrics)) (fun row =>
    ret (fst rb, row))))))) st (combine (seq 0 (length ds)) ds).

(** statistical.py 360-389 and 290-407. *)
Definition p_bias_variance_cell (o : obj (N:=N)) (cols : list (list N)) (metric : bool * nat) : prog (N * (N * N)) :=
  pbind (if fst metric then ret (decomposition sum cols (ds_y (snd o)))
         else pbind (pmap (fun c => pbind (ask (snd metric) o c) (fun v => lift (as_column (n_queries (snd o)) (snd v)))) cols) (fun q =>
              ret (decomposition sum q (repeat none (n_queries (snd o)))))) (fun r =>
  ret (nf32 (fst r), (nf32 (fst (snd r)), nf32 (snd (snd r))))).
Definition p_bias_variance (notebook : bool) (shuffles : nat -> nat -> nat -> nat -> list nat) (ds : list (obj (N:=N))) (algos : list (algorithm N))
    (metrics : list (bool * nat)) (L k : Z) (made : list (M_Statistical.call N)) :=
  if (k <? 2) || (L <? 2) || (length ds =? 0)%nat || (length metrics =? 0)%nat then lift (Err AssertionError) else
  pmapST (fun made d =>
    pbind (pmapST (fun made a =>
      pmapST (fun made m =>
        pbind (lift (multi_kfold_scoring notebook (snd a) (snd (snd d)) L k (shuffles (fst d) (fst a) (fst m)) made)) (fun cols =>
        pbind (p_bias_variance_cell (snd d) (snd cols) (snd m)) (fun cell =>
        ret (fst cols, cell)))) made (combine (seq 0 (length metrics)) metrics)) made (combine (seq 0 (length algos)) algos)) (fun r =>
    pbind (lift (by_metric (length metrics) (snd r))) (fun rows =>
    ret (fst r, rows)))) made (combine (seq 0 (length ds)) ds).

(** feature.py 149-200, 148-200, 124-212 and 68-86. *)
Definition p_metric_visit (e : ensemble N) (o : obj (N:=N)) (metric : nat) (y_target y_pred : list N) (s : mstate (N:=N)) (q : mitem)
    : prog (mstate (N:=N) * list mitem) :=
  let '(node, depth, docs) := q in
  let d := snd o in
  pbind (lift (py_get (e_feature e) node)) (fun f =>
  pbind (lift (py_get (e_value e) node)) (fun thr =>
  pbind (lift (py_get (ms_cnt s) f)) (fun c =>
  pbind (lift (py_set (ms_cnt s) f (wrap_u 16 (c + 1)))) (fun cnt =>
  let M := match docs with Some M => M | None => zrange 0 (Z.of_nat (length (ds_X d))) end in
  pbind (lift (mapM (fun i => do row <- py_get (ds_X d) i; py_get row f) M)) (fun xs =>
  let left := map fst (filter (fun p => nleb (snd p) thr) (combine M xs)) in
  let right := map fst (filter (fun p => nltb thr (snd p)) (combine M xs)) in
  pbind (lift (of_option IndexError (nth_error (ms_levels s) depth))) (fun parent =>
  let mod0 := map nf32 parent in
  pbind (ask metric o (vec nadd mod0 y_pred)) (fun pre =>
  pbind (lift (set_mean sum y_target left mod0)) (fun mod1 =>
  pbind (lift (set_mean sum y_target right mod1)) (fun mod2 =>
  let levels := if (length (ms_levels s) - 1 <? depth + 1)%nat then ms_levels s ++ [parent] else ms_levels s in
  pbind (lift (of_option IndexError (nth_error levels (depth + 1)))) (fun next =>
  pbind (lift (match docs with
               | Some M => foldM (fun a i => do v <- py_get mod2 i; py_set a i v) M next
               | None => Ok mod2
               end)) (fun next' =>
  pbind (ask metric o (vec nadd mod2 y_pred)) (fun post => lift (
  do w <- py_get (ms_imp s) f;
  do imp <- py_set (ms_imp s) f (nf32 (nadd w (nsub (fst pre) (fst post))));
  do l <- py_get (e_left e) node;
  do ll <- is_leaf_node e l;
  do r <- py_get (e_right e) node;
  do rl <- is_leaf_node e r;
  Ok (mkM (upd levels (depth + 1) next') imp cnt,
      (if ll then [] else [(l, (depth + 1)%nat, Some left)]) ++ (if rl then [] else [(r, (depth + 1)%nat, Some right)]))))))))))))))).
Fixpoint p_metric_visits (fuel : nat) (e : ensemble N) (o : obj (N:=N)) (metric : nat) (y_target y_pred : list N) (s : mstate (N:=N)) (queue : list mitem)
    : prog (mstate (N:=N)) :=
  match queue with
  | [] => ret s
  | q :: rest =>
      match fuel with
      | O => lift (Err Diverge)
      | S fuel' => pbind (p_metric_visit e o metric y_target y_pred s q) (fun r => p_metric_visits fuel' e o metric y_target y_pred (fst r) (rest ++ snd r))
      end
  end.
Definition p_metric_tree (e : ensemble N) (o : obj (N:=N)) (metric : nat) (s : list N * list Z * list N) (tree : Z) : prog (list N * list Z * list N) :=
  let '(imp, cnt, y_pred) := s in
  let d := snd o in
  let y_target := vec nsub (ds_y d) y_pred in
  let mean := ndiv (sum y_target) (nofnat (length y_target)) in
  pbind (lift (py_get (e_root e) tree)) (fun root =>
  pbind (p_metric_visits (S (length (e_left e))) e o metric y_target y_pred (mkM [repeat mean (n_instances d)] imp cnt) [(root, 0%nat, None)]) (fun s =>
  pbind (lift (py_get (e_weight e) tree)) (fun w =>
  ret (ms_imp s, ms_cnt s, vec nadd y_pred (map (fun v => nmul v w) (last (ms_levels s) [])))))).
Definition p_metric_importance (e : ensemble N) (o : obj (N:=N)) (metric : nat) (normalize : bool) : prog (list N * list Z) :=
  let d := snd o in
  pbind (pfold (p_metric_tree e o metric) (zrange 0 (e_ntrees e)) (repeat nzero (ds_nf d), repeat 0 (ds_nf d), repeat nzero (n_instances d))) (fun s =>
  pbind (lift (if normalize then do m <- nmax (fst (fst s)); Ok (map (fun a => nf32 (ndiv a m)) (fst (fst s))) else Ok (fst (fst s)))) (fun imp =>
  ret (imp, snd (fst s)))).
End Programs.
Arguments Ret {N A}. Arguments Ask {N A}. Arguments mobj : clear implicits. Arguments action : clear implicits.
