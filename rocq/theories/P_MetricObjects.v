(** Analyses with metric objects that keep state: C90. *)
From Coq Require Import List ZArith QArith Reals Bool Lia.
From Verif Require Import Base Num M_Dataset M_Metrics S_Metrics L_Metrics M_NDCG S_NDCG M_Ensemble S_Ensemble M_Effectiveness S_Effectiveness L_Effectiveness4
  M_FeatureMetric M_Statistical M_MetricObjects S_MetricObjects L_MetricObjects L_MetricObjects2 L_MetricObjects3 P_Effectiveness P_Metrics.
Import ListNotations.
Local Open Scope Z_scope.

(** Any program that uses metric objects, after any history. *)
Theorem C90_any_program : forall (N : num) (argsort : list N -> list nat), permuting argsort ->
  forall (digest : list (list N) -> list N -> list Z -> Z) (U : obj (N:=N) -> Prop), separate digest U ->
  forall (ms0 : list (mobj N)) (h : list (action N)), new_objects ms0 -> actions_in U h ->
  forall A (p : prog A), asks_in U p ->
  snd (run_objects argsort digest (after_actions argsort digest ms0 h) p) = run_functions (map (meant argsort) ms0) p.
Proof. exact C90_any_program_lemma. Qed.
Print Assumptions C90_any_program.

(** Two histories give the same results. *)
Theorem C90_histories_do_not_matter : forall (N : num) (argsort : list N -> list nat), permuting argsort ->
  forall (digest : list (list N) -> list N -> list Z -> Z) (U : obj (N:=N) -> Prop), separate digest U ->
  forall (ms0 : list (mobj N)) (h h' : list (action N)), new_objects ms0 -> actions_in U h -> actions_in U h' ->
  forall A (p : prog A), asks_in U p ->
  snd (run_objects argsort digest (after_actions argsort digest ms0 h) p)
  = snd (run_objects argsort digest (after_actions argsort digest ms0 h') p).
Proof. exact C90_order_lemma. Qed.
Print Assumptions C90_histories_do_not_matter.

(** The analyses ask only about the data sets they are given. *)
Theorem C90_data_sets_of_an_analysis : forall (N : num) (U : obj (N:=N) -> Prop) digest rowsum sum st ds ms js, Forall U ds ->
  (forall cache, asks_in U (p_model_performance digest rowsum st ds ms js cache)) /\
  (forall step cache, asks_in U (p_tree_wise_performance digest rowsum st ds ms js step cache)) /\
  (forall bins start stop cache, asks_in U (p_query_wise_performance digest rowsum st ds ms js bins start stop cache)) /\
  (forall classes cache, asks_in U (p_query_class_performance digest rowsum st ds ms js classes cache)) /\
  (forall choice a b n cache, asks_in U (p_statistical_significance digest rowsum sum choice st ds a b js n cache)) /\
  (forall notebook shuffles algos kinds L k calls, asks_in U (p_bias_variance sum notebook shuffles ds algos (combine kinds js) L k calls)) /\
  (forall e o j normalize, In o ds -> asks_in U (p_metric_importance sum e o j normalize)).
Proof. exact C90_asks_lemma. Qed.
Print Assumptions C90_data_sets_of_an_analysis.

Theorem C90_model_performance : forall (N : num) (argsort : list N -> list nat), permuting argsort ->
  forall (digest : list (list N) -> list N -> list Z -> Z) (U : obj (N:=N) -> Prop), separate digest U ->
  forall (ms0 : list (mobj N)) (h : list (action N)), new_objects ms0 -> actions_in U h ->
  forall rowsum st ds ms js metrics cache, positions argsort ms0 js metrics -> Forall U ds ->
  snd (run_objects argsort digest (after_actions argsort digest ms0 h) (p_model_performance digest rowsum st ds ms js cache))
  = model_performance rowsum digest st ds ms metrics cache.
Proof. exact C90_model_performance_lemma. Qed.
Print Assumptions C90_model_performance.

Theorem C90_tree_wise_performance : forall (N : num) (argsort : list N -> list nat), permuting argsort ->
  forall (digest : list (list N) -> list N -> list Z -> Z) (U : obj (N:=N) -> Prop), separate digest U ->
  forall (ms0 : list (mobj N)) (h : list (action N)), new_objects ms0 -> actions_in U h ->
  forall rowsum st ds ms js metrics step cache, positions argsort ms0 js metrics -> Forall U ds ->
  snd (run_objects argsort digest (after_actions argsort digest ms0 h) (p_tree_wise_performance digest rowsum st ds ms js step cache))
  = tree_wise_performance rowsum digest st ds ms metrics step cache.
Proof. exact C90_tree_wise_performance_lemma. Qed.
Print Assumptions C90_tree_wise_performance.

Theorem C90_query_wise_performance : forall (N : num) (argsort : list N -> list nat), permuting argsort ->
  forall (digest : list (list N) -> list N -> list Z -> Z) (U : obj (N:=N) -> Prop), separate digest U ->
  forall (ms0 : list (mobj N)) (h : list (action N)), new_objects ms0 -> actions_in U h ->
  forall rowsum st ds ms js metrics bins start stop cache, positions argsort ms0 js metrics -> Forall U ds ->
  snd (run_objects argsort digest (after_actions argsort digest ms0 h) (p_query_wise_performance digest rowsum st ds ms js bins start stop cache))
  = query_wise_performance rowsum digest st ds ms metrics bins start stop cache.
Proof. exact C90_query_wise_performance_lemma. Qed.
Print Assumptions C90_query_wise_performance.

Theorem C90_query_class_performance : forall (N : num) (argsort : list N -> list nat), permuting argsort ->
  forall (digest : list (list N) -> list N -> list Z -> Z) (U : obj (N:=N) -> Prop), separate digest U ->
  forall (ms0 : list (mobj N)) (h : list (action N)), new_objects ms0 -> actions_in U h ->
  forall rowsum st ds ms js metrics classes cache, positions argsort ms0 js metrics -> Forall U ds ->
  snd (run_objects argsort digest (after_actions argsort digest ms0 h) (p_query_class_performance digest rowsum st ds ms js classes cache))
  = query_class_performance rowsum digest st ds ms metrics classes cache.
Proof. exact C90_query_class_performance_lemma. Qed.
Print Assumptions C90_query_class_performance.

Theorem C90_statistical_significance : forall (N : num) (argsort : list N -> list nat), permuting argsort ->
  forall (digest : list (list N) -> list N -> list Z -> Z) (U : obj (N:=N) -> Prop), separate digest U ->
  forall (ms0 : list (mobj N)) (h : list (action N)), new_objects ms0 -> actions_in U h ->
  forall rowsum sum choice st ds a b js metrics n_perm cache, positions argsort ms0 js metrics -> Forall U ds ->
  snd (run_objects argsort digest (after_actions argsort digest ms0 h) (p_statistical_significance digest rowsum sum choice st ds a b js n_perm cache))
  = statistical_significance sum digest rowsum choice st ds a b metrics n_perm cache.
Proof. exact C90_statistical_significance_lemma. Qed.
Print Assumptions C90_statistical_significance.

Theorem C90_bias_variance : forall (N : num) (argsort : list N -> list nat), permuting argsort ->
  forall (digest : list (list N) -> list N -> list Z -> Z) (U : obj (N:=N) -> Prop), separate digest U ->
  forall (ms0 : list (mobj N)) (h : list (action N)), new_objects ms0 -> actions_in U h ->
  forall sum notebook shuffles ds algos kinds js metrics L k calls, positions argsort ms0 js metrics -> length kinds = length js -> Forall U ds ->
  snd (run_objects argsort digest (after_actions argsort digest ms0 h) (p_bias_variance sum notebook shuffles ds algos (combine kinds js) L k calls))
  = bias_variance sum notebook shuffles (map snd ds) algos (combine kinds metrics) L k calls.
Proof. exact C90_bias_variance_lemma. Qed.
Print Assumptions C90_bias_variance.

Theorem C90_feature_importance : forall (N : num) (argsort : list N -> list nat), permuting argsort ->
  forall (digest : list (list N) -> list N -> list Z -> Z) (U : obj (N:=N) -> Prop), separate digest U ->
  forall (ms0 : list (mobj N)) (h : list (action N)), new_objects ms0 -> actions_in U h ->
  forall sum e o j m normalize, nth_error ms0 j = Some m -> U o ->
  snd (run_objects argsort digest (after_actions argsort digest ms0 h) (p_metric_importance sum e o j normalize))
  = metric_importance sum e (snd o) (meant argsort m) normalize.
Proof. exact C90_feature_importance_lemma. Qed.
Print Assumptions C90_feature_importance.

(** In real arithmetic every entry of model_performance is the metric computed from scratch on the
    scores of the model, whatever the metric objects and the cached scores were used for before. *)
Theorem C90_entries : forall (argsort : list RE -> list nat), permuting (N:=RE) argsort ->
  forall (digest : list (list RE) -> list RE -> list Z -> Z) (U : obj (N:=RE) -> Prop), separate digest U ->
  forall (ms0 : list (mobj RE)) (h : list (action RE)), new_objects ms0 -> actions_in U h ->
  forall (rowsum : list RE -> RE), (forall l, rowsum l = Rtotal l) ->
  forall st sh ds, ready digest st sh ds -> Forall U ds ->
  forall ms js cache st' data, Forall (fun j => (j < length ms0)%nat) js ->
  snd (run_objects argsort digest (after_actions argsort digest ms0 h) (p_model_performance digest rowsum st ds ms js cache)) = Ok (st', data) ->
  length data = length ds /\
  forall a b c o i j norel g cutoff n0, nth_error ds a = Some o -> nth_error ms b = Some i -> nth_error js c = Some j ->
    nth_error ms0 j = Some (Ndcg norel g cutoff n0) ->
    exists m s v, nth_error st i = Some m /\ nth_error sh i = Some s /\
      metric_eval (ndcg32 argsort norel g cutoff) (snd o) (scores_of m s (snd o)) = Ok v /\ at3 data a b c = Some (fst v).
Proof.
  intros argsort Hs digest U HU ms0 h Hn Hh rowsum Hr st sh ds Hst Hd ms js cache st' data Hj E.
  destruct (positions_exist argsort ms0 js Hj) as (fs & Hp & Hc).
  rewrite (C90_model_performance_lemma RE argsort Hs digest U HU ms0 h Hn Hh rowsum st ds ms js fs cache Hp Hd) in E.
  destruct (C57_entries_are_independent rowsum digest Hr st sh ds Hst ms fs cache st' data E) as [EL Ea].
  split; [exact EL|]. intros a b c o i j norel g cutoff n0 E1 E2 E3 E4.
  exact (Ea a b c o i _ E1 E2 (Hc c j _ E3 E4)).
Qed.
Print Assumptions C90_entries.

(** Two NDCG objects and a precision, two data sets, and a history with an analysis that fails after
    some evaluations (there is no model 5), a direct call and an analysis that succeeds. *)
Definition xms : list (mobj QN) :=
  [Ndcg (N:=QN) 1%Q Flat (Some 1) (ndcg_init (N:=QN)); Plain p2; Ndcg (N:=QN) 0%Q Flat (Some 1) (ndcg_init (N:=QN))].
Definition xh : list (action QN) :=
  [Analysis _ (p_model_performance (N:=QN) xdigest qsum xst xds [0; 5]%nat [0; 2]%nat true);
   PerQuery (N:=QN) 0 [1; 0]%Q [2; 1]%Q;
   Analysis _ (p_metric_importance (N:=QN) qsum stumps2 (nth 1 xds (0%nat, ndA)) 2 false)].
Definition xU (o : obj (N:=QN)) : Prop := In o xds.
Example C90_hypotheses : separate xdigest xU /\ new_objects xms /\ actions_in xU xh /\ Forall xU xds /\
  positions stable_argsort xms [0; 1; 2; 0]%nat [meant stable_argsort (nth 0 xms (Plain p2)); p2; meant stable_argsort (nth 2 xms (Plain p2)); meant stable_argsort (nth 0 xms (Plain p2))].
Proof.
  assert (Hd : Forall xU xds) by (apply Forall_forall; auto).
  split; [split|split; [|split; [|split]]].
  - intros o [<-|[<-|[]]]; cbn [snd].
    + exists 1%nat, [[1]; [2]; [3]; [4]]%Q, [0; 1; 0; 1]%Q, [7; 7; 9; 9]%Z. vm_compute. reflexivity.
    + exists 1%nat, [[4]; [2]; [1]; [3]]%Q, [1; 1; 0; 0]%Q, [5; 5; 5; 5]%Z. vm_compute. reflexivity.
  - intros k o [<-|[<-|[]]] [<-|[<-|[]]]; try (left; reflexivity); right; (split; [discriminate|]); intros E; vm_compute in E; discriminate E.
  - repeat constructor.
  - destruct (C90_asks_lemma QN xU xdigest qsum qsum xst xds [0; 5]%nat [0; 2]%nat Hd) as (A1 & _ & _ & _ & _ & _ & A7).
    constructor; [apply A1|]. constructor; [exact I|]. constructor; [|constructor]. apply A7. right. left. reflexivity.
  - exact Hd.
  - repeat constructor; eexists; split; reflexivity.
Qed.
Example C90_example :
  value (snd (run_objects stable_argsort xdigest (after_actions stable_argsort xdigest xms xh)
                (p_model_performance (N:=QN) xdigest qsum xst xds [0; 1]%nat [0; 1; 2; 0]%nat true)))
  = Ok [[[(1#2); (1#2); (1#2); (1#2)]; [1; (1#2); 1; 1]]; [[0; (1#2); 0; 0]; [0; (1#2); 0; 0]]]%Q /\
  snd (run_objects stable_argsort xdigest xms (p_model_performance (N:=QN) xdigest qsum xst xds [0; 5]%nat [0; 2]%nat true)) = Err IndexError /\
  map (fun m => match m with Plain _ => 0%nat | Ndcg _ _ _ st => length (st_cache st) end) (after_actions stable_argsort xdigest xms xh) = [1; 0; 2]%nat.
Proof. vmr. Qed.

(** Data sets that compare equal but have other queries: the second row of the result is wrong. *)
Definition cfA : dataset QN := mkDataset [[1]; [2]; [3]]%Q 1 ([0; 1; 2]%Q : list QN) [1; 2]%Z [0; 2; 3]%nat.
Definition cfB : dataset QN := mkDataset [[1]; [2]; [3]]%Q 1 ([0; 1; 2]%Q : list QN) [1; 2]%Z [0; 1; 3]%nat.
Theorem C90_confused_data_sets_refuted :
  exists (ms0 : list (mobj QN)) (st : list (model QN)) (ds : list (obj (N:=QN))) fs, new_objects ms0 /\ Forall (fun o => made (snd o)) ds /\
    Forall (fun k => Forall (fun o => ds_eq neqb (snd k) (snd o) = Ok true) ds) ds /\
    positions stable_argsort ms0 [0]%nat fs /\
    exists a b, value (model_performance qsum dg0 st ds [0]%nat fs false) = Ok [a; b] /\
      exists b', value (snd (run_objects stable_argsort dg0 ms0 (p_model_performance dg0 qsum st ds [0]%nat [0]%nat false))) = Ok [a; b'] /\ b' <> b.
Proof.
  exists [Ndcg (N:=QN) 1%Q Flat (Some 1) (ndcg_init (N:=QN))], xst, [(0%nat, cfA); (1%nat, cfB)].
  exists [metric_eval (N:=QN) (ndcg32 stable_argsort (1%Q : QN) Flat (Some 1))].
  split; [repeat constructor|].
  split; [constructor; [exists 1%nat, [[1]; [2]; [3]]%Q, [0; 1; 2]%Q, [1; 1; 2]%Z; vm_compute; reflexivity|
          constructor; [exists 1%nat, [[1]; [2]; [3]]%Q, [0; 1; 2]%Q, [1; 2; 2]%Z; vm_compute; reflexivity|constructor]]|].
  split; [repeat constructor; vm_compute; reflexivity|].
  split; [repeat constructor; eexists; split; reflexivity|].
  eexists. eexists. split; [vm_compute; reflexivity|]. eexists. split; [vm_compute; reflexivity|]. discriminate.
Qed.
Print Assumptions C90_confused_data_sets_refuted.
