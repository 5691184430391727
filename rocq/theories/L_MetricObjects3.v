(** The analyses with metric objects. *)
From Coq Require Import List ZArith Bool Lia.
From Verif Require Import Base Num M_Dataset M_Metrics S_Metrics M_NDCG S_NDCG M_Ensemble M_Effectiveness M_FeatureMetric M_Statistical
  M_MetricObjects S_MetricObjects L_MetricObjects L_MetricObjects2.
Import ListNotations.
Local Open Scope Z_scope.

Lemma named_combine {N : num} (fs : list (evaluator (N:=N))) kinds js metrics : Forall2 (fun j f => nth_error fs j = Some f) js metrics ->
  Forall2 (named fs) (combine kinds js) (combine kinds metrics).
Proof. intros H. exact (Forall2_combine _ kinds _ _ H). Qed.

Lemma C90_model_performance_lemma : forall (N : num) (argsort : list N -> list nat), permuting argsort ->
  forall (digest : list (list N) -> list N -> list Z -> Z) (U : obj (N:=N) -> Prop), separate digest U ->
  forall (ms0 : list (mobj N)) (h : list (action N)), new_objects ms0 -> actions_in U h ->
  forall rowsum st ds ms js metrics cache, positions argsort ms0 js metrics -> Forall U ds ->
  snd (run_objects argsort digest (after_actions argsort digest ms0 h) (p_model_performance digest rowsum st ds ms js cache))
  = model_performance rowsum digest st ds ms metrics cache.
Proof.
  intros N argsort Hs digest U HU ms0 h Hn Hh rowsum st ds ms js metrics cache Hp Hd.
  rewrite (objects_lemma argsort Hs digest U HU ms0 h Hn Hh); [|apply asks_performance; auto].
  apply rf_model_performance; apply positions_functions; auto.
Qed.

Lemma C90_tree_wise_performance_lemma : forall (N : num) (argsort : list N -> list nat), permuting argsort ->
  forall (digest : list (list N) -> list N -> list Z -> Z) (U : obj (N:=N) -> Prop), separate digest U ->
  forall (ms0 : list (mobj N)) (h : list (action N)), new_objects ms0 -> actions_in U h ->
  forall rowsum st ds ms js metrics step cache, positions argsort ms0 js metrics -> Forall U ds ->
  snd (run_objects argsort digest (after_actions argsort digest ms0 h) (p_tree_wise_performance digest rowsum st ds ms js step cache))
  = tree_wise_performance rowsum digest st ds ms metrics step cache.
Proof.
  intros N argsort Hs digest U HU ms0 h Hn Hh rowsum st ds ms js metrics step cache Hp Hd.
  rewrite (objects_lemma argsort Hs digest U HU ms0 h Hn Hh); [|apply asks_tree_wise; auto].
  apply rf_tree_wise_performance; apply positions_functions; auto.
Qed.

Lemma C90_query_wise_performance_lemma : forall (N : num) (argsort : list N -> list nat), permuting argsort ->
  forall (digest : list (list N) -> list N -> list Z -> Z) (U : obj (N:=N) -> Prop), separate digest U ->
  forall (ms0 : list (mobj N)) (h : list (action N)), new_objects ms0 -> actions_in U h ->
  forall rowsum st ds ms js metrics bins start stop cache, positions argsort ms0 js metrics -> Forall U ds ->
  snd (run_objects argsort digest (after_actions argsort digest ms0 h) (p_query_wise_performance digest rowsum st ds ms js bins start stop cache))
  = query_wise_performance rowsum digest st ds ms metrics bins start stop cache.
Proof.
  intros N argsort Hs digest U HU ms0 h Hn Hh rowsum st ds ms js metrics bins start stop cache Hp Hd.
  rewrite (objects_lemma argsort Hs digest U HU ms0 h Hn Hh); [|apply asks_query_wise; auto].
  apply rf_query_wise_performance; apply positions_functions; auto.
Qed.

Lemma C90_query_class_performance_lemma : forall (N : num) (argsort : list N -> list nat), permuting argsort ->
  forall (digest : list (list N) -> list N -> list Z -> Z) (U : obj (N:=N) -> Prop), separate digest U ->
  forall (ms0 : list (mobj N)) (h : list (action N)), new_objects ms0 -> actions_in U h ->
  forall rowsum st ds ms js metrics classes cache, positions argsort ms0 js metrics -> Forall U ds ->
  snd (run_objects argsort digest (after_actions argsort digest ms0 h) (p_query_class_performance digest rowsum st ds ms js classes cache))
  = query_class_performance rowsum digest st ds ms metrics classes cache.
Proof.
  intros N argsort Hs digest U HU ms0 h Hn Hh rowsum st ds ms js metrics classes cache Hp Hd.
  rewrite (objects_lemma argsort Hs digest U HU ms0 h Hn Hh); [|apply asks_query_class; auto].
  apply rf_query_class_performance; apply positions_functions; auto.
Qed.

Lemma C90_statistical_significance_lemma : forall (N : num) (argsort : list N -> list nat), permuting argsort ->
  forall (digest : list (list N) -> list N -> list Z -> Z) (U : obj (N:=N) -> Prop), separate digest U ->
  forall (ms0 : list (mobj N)) (h : list (action N)), new_objects ms0 -> actions_in U h ->
  forall rowsum sum choice st ds a b js metrics n_perm cache, positions argsort ms0 js metrics -> Forall U ds ->
  snd (run_objects argsort digest (after_actions argsort digest ms0 h) (p_statistical_significance digest rowsum sum choice st ds a b js n_perm cache))
  = statistical_significance sum digest rowsum choice st ds a b metrics n_perm cache.
Proof.
  intros N argsort Hs digest U HU ms0 h Hn Hh rowsum sum choice st ds a b js metrics n_perm cache Hp Hd.
  rewrite (objects_lemma argsort Hs digest U HU ms0 h Hn Hh); [|apply asks_significance; auto].
  apply rf_statistical_significance; apply positions_functions; auto.
Qed.

Lemma C90_bias_variance_lemma : forall (N : num) (argsort : list N -> list nat), permuting argsort ->
  forall (digest : list (list N) -> list N -> list Z -> Z) (U : obj (N:=N) -> Prop), separate digest U ->
  forall (ms0 : list (mobj N)) (h : list (action N)), new_objects ms0 -> actions_in U h ->
  forall sum notebook shuffles ds algos kinds js metrics L k calls, positions argsort ms0 js metrics -> length kinds = length js -> Forall U ds ->
  snd (run_objects argsort digest (after_actions argsort digest ms0 h) (p_bias_variance sum notebook shuffles ds algos (combine kinds js) L k calls))
  = bias_variance sum notebook shuffles (map snd ds) algos (combine kinds metrics) L k calls.
Proof.
  intros N argsort Hs digest U HU ms0 h Hn Hh sum notebook shuffles ds algos kinds js metrics L k calls Hp _ Hd.
  rewrite (objects_lemma argsort Hs digest U HU ms0 h Hn Hh); [|apply asks_bias_variance; auto].
  apply rf_bias_variance; apply named_combine, positions_functions; auto.
Qed.

Lemma C90_feature_importance_lemma : forall (N : num) (argsort : list N -> list nat), permuting argsort ->
  forall (digest : list (list N) -> list N -> list Z -> Z) (U : obj (N:=N) -> Prop), separate digest U ->
  forall (ms0 : list (mobj N)) (h : list (action N)), new_objects ms0 -> actions_in U h ->
  forall sum e o j m normalize, nth_error ms0 j = Some m -> U o ->
  snd (run_objects argsort digest (after_actions argsort digest ms0 h) (p_metric_importance sum e o j normalize))
  = metric_importance sum e (snd o) (meant argsort m) normalize.
Proof.
  intros N argsort Hs digest U HU ms0 h Hn Hh sum e o j m normalize Hp Hd.
  rewrite (objects_lemma argsort Hs digest U HU ms0 h Hn Hh); [|apply asks_importance; auto].
  apply rf_metric_importance; rewrite nth_error_map, Hp; reflexivity.
Qed.

Lemma positions_exist {N : num} (argsort : list N -> list nat) ms0 js : Forall (fun j => (j < length ms0)%nat) js ->
  exists fs, positions argsort ms0 js fs /\
    forall c j m, nth_error js c = Some j -> nth_error ms0 j = Some m -> nth_error fs c = Some (meant argsort m).
Proof.
  induction 1 as [|j js Hj _ (fs & Hp & Hc)].
  - exists []. split; [constructor|]. intros [|c] j m E; discriminate.
  - destruct (nth_error ms0 j) as [m|] eqn:E; [|apply nth_error_None in E; lia].
    exists (meant argsort m :: fs). split; [constructor; eauto|].
    intros [|c] j' m' E1 E2; cbn in *; [congruence|eauto].
Qed.

Lemma C90_order_lemma : forall (N : num) (argsort : list N -> list nat), permuting argsort ->
  forall (digest : list (list N) -> list N -> list Z -> Z) (U : obj (N:=N) -> Prop), separate digest U ->
  forall (ms0 : list (mobj N)) (h h' : list (action N)), new_objects ms0 -> actions_in U h -> actions_in U h' ->
  forall A (p : prog A), asks_in U p ->
  snd (run_objects argsort digest (after_actions argsort digest ms0 h) p)
  = snd (run_objects argsort digest (after_actions argsort digest ms0 h') p).
Proof.
  intros N argsort Hs digest U HU ms0 h h' Hn Hh Hh' A p Hp.
  rewrite (objects_lemma argsort Hs digest U HU ms0 h Hn Hh), (objects_lemma argsort Hs digest U HU ms0 h' Hn Hh'); auto.
Qed.

Lemma C90_any_program_lemma : forall (N : num) (argsort : list N -> list nat), permuting argsort ->
  forall (digest : list (list N) -> list N -> list Z -> Z) (U : obj (N:=N) -> Prop), separate digest U ->
  forall (ms0 : list (mobj N)) (h : list (action N)), new_objects ms0 -> actions_in U h ->
  forall A (p : prog A), asks_in U p ->
  snd (run_objects argsort digest (after_actions argsort digest ms0 h) p) = run_functions (map (meant argsort) ms0) p.
Proof. intros N argsort Hs digest U HU ms0 h Hn Hh A p Hp. apply (objects_lemma argsort Hs digest U HU ms0 h Hn Hh A p Hp). Qed.

Lemma C90_asks_lemma : forall (N : num) (U : obj (N:=N) -> Prop) digest rowsum sum st ds ms js, Forall U ds ->
  (forall cache, asks_in U (p_model_performance digest rowsum st ds ms js cache)) /\
  (forall step cache, asks_in U (p_tree_wise_performance digest rowsum st ds ms js step cache)) /\
  (forall bins start stop cache, asks_in U (p_query_wise_performance digest rowsum st ds ms js bins start stop cache)) /\
  (forall classes cache, asks_in U (p_query_class_performance digest rowsum st ds ms js classes cache)) /\
  (forall choice a b n cache, asks_in U (p_statistical_significance digest rowsum sum choice st ds a b js n cache)) /\
  (forall notebook shuffles algos kinds L k calls, asks_in U (p_bias_variance sum notebook shuffles ds algos (combine kinds js) L k calls)) /\
  (forall e o j normalize, In o ds -> asks_in U (p_metric_importance sum e o j normalize)).
Proof.
  intros N U digest rowsum sum st ds ms js H. split; [intros; apply asks_performance; auto|]. split; [intros; apply asks_tree_wise; auto|].
  split; [intros; apply asks_query_wise; auto|]. split; [intros; apply asks_query_class; auto|]. split; [intros; apply asks_significance; auto|].
  split; [intros; apply asks_bias_variance; auto|]. intros e o j normalize Ho. apply asks_importance. rewrite Forall_forall in H. auto.
Qed.
