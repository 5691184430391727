(** The programs of the analyses: what they compute with functions and which data sets they ask about. *)
From Coq Require Import List ZArith Bool Lia.
From Verif Require Import Base Num M_Dataset M_Metrics S_Metrics M_NDCG S_NDCG M_Ensemble M_Effectiveness M_FeatureMetric M_Statistical
  M_MetricObjects S_MetricObjects L_MetricObjects.
Import ListNotations.
Local Open Scope Z_scope.

Section Analyses.
Context {N : num}.
Variable rowsum : list N -> N.
Variable digest : list (list N) -> list N -> list Z -> Z.
Variable sum : list N -> N.
Variable fs : list (evaluator (N:=N)).
Notation rf := (run_functions fs).
Notation at_ := (fun j f => nth_error fs j = Some f).

Ltac step := apply rf_step; [try reflexivity|intros ?].

Lemma rf_model_performance st ds ms js metrics cache : Forall2 at_ js metrics ->
  rf (p_model_performance digest rowsum st ds ms js cache) = model_performance rowsum digest st ds ms metrics cache.
Proof.
  intros HJ. unfold p_model_performance, model_performance. apply (rf_mapST fs eq); [apply Forall2_refl|]. intros s o ? <-.
  apply (rf_mapST fs eq); [apply Forall2_refl|]. intros s' i ? <-. step. step. step; [|reflexivity].
  apply (rf_map fs _ _ _ _ _ HJ). intros j f E. step; [apply rf_ask; exact E|reflexivity].
Qed.

Lemma rf_steps_of_model o parts js metrics step own : Forall2 at_ js metrics ->
  rf (p_steps_of_model rowsum o parts js step own) = steps_of_model rowsum (snd o) parts metrics step own.
Proof.
  intros HJ. unfold p_steps_of_model, steps_of_model. step; [|reflexivity].
  apply (rf_mapST fs eq); [apply Forall2_refl|]. intros y p ? <-. step. step; [|reflexivity].
  apply (rf_map fs _ _ _ _ _ HJ). intros j f E. step; [apply rf_ask; exact E|reflexivity].
Qed.

Lemma rf_tree_wise_performance st ds ms js metrics n cache : Forall2 at_ js metrics ->
  rf (p_tree_wise_performance digest rowsum st ds ms js n cache) = tree_wise_performance rowsum digest st ds ms metrics n cache.
Proof.
  intros HJ. unfold p_tree_wise_performance, tree_wise_performance. step. step. step; [|reflexivity].
  apply (rf_mapST fs eq); [apply Forall2_refl|]. intros s o ? <-.
  apply (rf_mapST fs eq); [apply Forall2_refl|]. intros s' i ? <-. step. step. step. step.
  step; [apply rf_steps_of_model; exact HJ|]. destruct (_ <? _)%nat; reflexivity.
Qed.

Lemma rf_query_scores st ds ms js metrics cache : Forall2 at_ js metrics ->
  rf (p_query_scores digest rowsum st ds ms js cache) = query_scores rowsum digest st ds ms metrics cache.
Proof.
  intros HJ. unfold p_query_scores, query_scores. apply (rf_mapST fs eq); [apply Forall2_refl|]. intros s o ? <-.
  apply (rf_mapST fs eq); [apply Forall2_refl|]. intros s' i ? <-. step. step. step; [|reflexivity].
  apply (rf_map fs _ _ _ _ _ HJ). intros j f E. step; [apply rf_ask; exact E|reflexivity].
Qed.
Lemma rf_query_wise_performance st ds ms js metrics bins start stop cache : Forall2 at_ js metrics ->
  rf (p_query_wise_performance digest rowsum st ds ms js bins start stop cache)
  = query_wise_performance rowsum digest st ds ms metrics bins start stop cache.
Proof.
  intros HJ. unfold p_query_wise_performance, query_wise_performance. step; [apply rf_query_scores; exact HJ|]. reflexivity.
Qed.
Lemma rf_query_class_performance st ds ms js metrics classes cache : Forall2 at_ js metrics ->
  rf (p_query_class_performance digest rowsum st ds ms js classes cache)
  = query_class_performance rowsum digest st ds ms metrics classes cache.
Proof.
  intros HJ. unfold p_query_class_performance, query_class_performance. step; [apply rf_query_scores; exact HJ|]. reflexivity.
Qed.

Lemma rf_statistical_significance choice st ds a b js metrics n cache : Forall2 at_ js metrics ->
  rf (p_statistical_significance digest rowsum sum choice st ds a b js n cache)
  = statistical_significance sum digest rowsum choice st ds a b metrics n cache.
Proof.
  intros HJ. unfold p_statistical_significance, statistical_significance.
  apply (rf_mapST fs eq); [apply Forall2_refl|]. intros s o ? <-. step. step. step. step. step; [|reflexivity].
  assert (EL : length js = length metrics) by (clear -HJ; induction HJ; cbn; congruence).
  rewrite EL. apply (rf_map fs _ _ _ _ _ (Forall2_combine _ (seq 0 (length metrics)) _ _ HJ)).
  intros [i j] [i' f] [E1 E2]. cbn [fst snd] in *. subst i'.
  step; [apply rf_ask; exact E2|]. step; [apply rf_ask; exact E2|]. step. reflexivity.
Qed.

Definition named (m : bool * nat) (m' : bool * evaluator (N:=N)) : Prop := fst m = fst m' /\ nth_error fs (snd m) = Some (snd m').

Lemma rf_cell o cols m m' : named m m' -> rf (p_bias_variance_cell sum o cols m) = bias_variance_cell sum (snd o) cols m'.
Proof.
  intros [E1 E2]. unfold p_bias_variance_cell, bias_variance_cell. rewrite E1. step; [|reflexivity].
  destruct (fst m'); [reflexivity|]. step; [|reflexivity].
  apply (rf_map fs eq); [apply Forall2_refl|]. intros c ? <-. step; [apply rf_ask; exact E2|]. reflexivity.
Qed.
Lemma combine_map_r {A B C} (f : B -> C) (a : list A) b : combine a (map f b) = map (fun p => (fst p, f (snd p))) (combine a b).
Proof. revert b. induction a; intros [|y b]; cbn; f_equal; auto. Qed.
Lemma Forall2_map_r {A B} (f : A -> B) l : Forall2 (fun x y => y = f x) l (map f l).
Proof. induction l; constructor; auto. Qed.

Lemma rf_bias_variance notebook shuffles ds algos js metrics L k made : Forall2 named js metrics ->
  rf (p_bias_variance sum notebook shuffles ds algos js L k made)
  = bias_variance sum notebook shuffles (map snd ds) algos metrics L k made.
Proof.
  intros HJ. unfold p_bias_variance, bias_variance. rewrite map_length.
  assert (EL : length js = length metrics) by (clear -HJ; induction HJ; cbn; congruence).
  rewrite EL. destruct (_ || _ || _ || _); [reflexivity|]. rewrite combine_map_r.
  apply (rf_mapST fs _ _ _ _ _ (Forall2_map_r _ _)). intros s d ? ->. cbn [fst snd].
  step.
  - apply (rf_mapST fs eq); [apply Forall2_refl|]. intros s' a ? <-.
    apply (rf_mapST fs _ _ _ _ _ (Forall2_combine _ (seq 0 (length metrics)) _ _ HJ)).
    intros s'' [i j] [i' f] [E1 E2]. cbn [fst snd] in *. subst i'.
    step. step; [apply rf_cell; exact E2|]. reflexivity.
  - step. reflexivity.
Qed.

Lemma rf_metric_visit e o j f yt yp s q : nth_error fs j = Some f ->
  rf (p_metric_visit sum e o j yt yp s q) = metric_visit sum e (snd o) f yt yp s q.
Proof.
  intros E. unfold p_metric_visit, metric_visit. destruct q as [[node depth] docs]. do 4 step. cbv zeta. do 2 step. step; [apply rf_ask; exact E|].
  do 4 step. step; [apply rf_ask; exact E|]. reflexivity.
Qed.
Lemma rf_metric_visits fuel e o j f yt yp : nth_error fs j = Some f -> forall s q,
  rf (p_metric_visits sum fuel e o j yt yp s q) = metric_visits sum fuel e (snd o) f yt yp s q.
Proof.
  intros E. induction fuel as [|fuel IH]; intros s [|q rest]; cbn [p_metric_visits metric_visits]; try reflexivity.
  step; [apply rf_metric_visit; exact E|]. apply IH.
Qed.
Lemma rf_metric_importance e o j f normalize : nth_error fs j = Some f ->
  rf (p_metric_importance sum e o j normalize) = metric_importance sum e (snd o) f normalize.
Proof.
  intros E. unfold p_metric_importance, metric_importance. step.
  - apply rf_fold. intros [[imp cnt] yp] t. cbn [p_metric_tree metric_tree]. step. step; [apply rf_metric_visits; exact E|]. step. reflexivity.
  - step. reflexivity.
Qed.
End Analyses.

Section Asks.
Context {N : num}.
Variable U : obj (N:=N) -> Prop.
Variable rowsum : list N -> N.
Variable digest : list (list N) -> list N -> list Z -> Z.
Variable sum : list N -> N.

Ltac walk := repeat first [apply asks_lift | apply asks_ret | (apply asks_ask; solve [auto]) | (apply asks_bind; [|intros ?])
  | (apply asks_map; intros ?) | apply (asks_mapST U (fun _ => True)); [apply Forall_forall; auto|intros ? ? _] ].

Lemma asks_performance st ds ms js cache : Forall U ds -> asks_in U (p_model_performance digest rowsum st ds ms js cache).
Proof. intros H. apply (asks_mapST U _ _ _ H). intros s o Ho. walk. Qed.
Lemma asks_tree_wise st ds ms js n cache : Forall U ds -> asks_in U (p_tree_wise_performance digest rowsum st ds ms js n cache).
Proof.
  intros H. unfold p_tree_wise_performance. do 2 (apply asks_bind; [apply asks_lift|intros ?]). apply asks_bind; [|intros; apply asks_ret].
  apply (asks_mapST U _ _ _ H). intros s o Ho. unfold p_steps_of_model. walk. destruct (_ <? _)%nat; walk.
Qed.
Lemma asks_query_scores st ds ms js cache : Forall U ds -> asks_in U (p_query_scores digest rowsum st ds ms js cache).
Proof. intros H. apply (asks_mapST U _ _ _ H). intros s o Ho. walk. Qed.
Lemma asks_query_wise st ds ms js bins start stop cache : Forall U ds -> asks_in U (p_query_wise_performance digest rowsum st ds ms js bins start stop cache).
Proof. intros H. apply asks_bind; [apply asks_query_scores; auto|]. intros. apply asks_lift. Qed.
Lemma asks_query_class st ds ms js classes cache : Forall U ds -> asks_in U (p_query_class_performance digest rowsum st ds ms js classes cache).
Proof. intros H. apply asks_bind; [apply asks_query_scores; auto|]. intros. apply asks_lift. Qed.
Lemma Forall_combine_snd {A B} (Q : B -> Prop) (a : list A) b : Forall Q b -> Forall (fun p => Q (snd p)) (combine a b).
Proof. intros H. revert a. induction H; intros [|u a]; cbn; constructor; auto. Qed.
Lemma asks_significance choice st ds a b js n cache : Forall U ds -> asks_in U (p_statistical_significance digest rowsum sum choice st ds a b js n cache).
Proof. intros H. apply (asks_mapST U _ _ _ (Forall_combine_snd _ (seq 0 (length ds)) _ H)). intros s o Ho. walk. Qed.
Lemma asks_bias_variance notebook shuffles ds algos js L k made : Forall U ds -> asks_in U (p_bias_variance sum notebook shuffles ds algos js L k made).
Proof.
  intros H. unfold p_bias_variance. destruct (_ || _ || _ || _); [exact I|].
  apply (asks_mapST U _ _ _ (Forall_combine_snd _ (seq 0 (length ds)) _ H)). intros s o Ho. walk.
  unfold p_bias_variance_cell. walk. destruct (fst _); walk.
Qed.
Lemma asks_visits fuel e o j yt yp : U o -> forall s q, asks_in U (p_metric_visits sum fuel e o j yt yp s q).
Proof.
  intros H. induction fuel as [|fuel IH]; intros s [|[[node depth] docs] rest]; cbn [p_metric_visits]; try exact I.
  apply asks_bind; [|intros; apply IH]. unfold p_metric_visit. walk.
Qed.
Lemma asks_importance e o j normalize : U o -> asks_in U (p_metric_importance sum e o j normalize).
Proof.
  intros H. unfold p_metric_importance. apply asks_bind; [|intros; walk]. apply asks_fold. intros [[imp cnt] yp] t. cbn [p_metric_tree].
  apply asks_bind; [walk|intros ?]. apply asks_bind; [apply asks_visits; auto|intros ?]. walk.
Qed.
End Asks.
