(** The analyses on twins. *)
From Coq Require Import List ZArith Bool Lia Permutation.
From Verif Require Import Base Lists Num M_Dataset S_Dataset M_NDCG M_Ensemble S_Ensemble L_Ensemble L_Ensemble2 L_Ensemble3 L_QuickRank S_Twins L_Twins
  M_Effectiveness M_Statistical.
Import ListNotations.
Local Open Scope Z_scope.

Section Analyses.
Context {N : num}.
Variable rowsum : list N -> N.
Variable digest : list (list N) -> list N -> list Z -> Z.
Notation stores := (Forall2 (@twins N)).
Notation step := (fun p q => stores (fst p) (fst q) /\ snd p = snd q).
Notation fits := (Forall (fun o : obj (N:=N) => rows_fit (snd o))).

Lemma at_same (st st' : list (model N)) i : stores st st' ->
  match nth_error st i, nth_error st' i with Some m, Some m' => twins m m' | None, None => True | _, _ => False end.
Proof. intros H. revert i. induction H as [|m m' st st' Hm _ IH]; intros [|i]; cbn [nth_error]; auto. apply IH. Qed.
Lemma upd_same (st st' : list (model N)) i m m' : stores st st' -> twins m m' -> stores (upd st i m) (upd st' i m').
Proof.
  intros H Hm. revert i. induction H as [|a a' st st' Ha Hst IH]; intros [|i]; cbn [upd]; constructor; auto.
Qed.

Lemma score_in_same st st' i o det cache : stores st st' -> rows_fit (snd o) ->
  both (fun p q => stores (fst p) (fst q) /\ same_answer (snd p) (snd q)) (score_in rowsum digest st i o det cache) (score_in rowsum digest st' i o det cache).
Proof.
  intros H HR. unfold score_in. assert (A := at_same st st' i H).
  destruct (nth_error st i) as [m|], (nth_error st' i) as [m'|]; cbn [of_option bind]; try contradiction; [|reflexivity].
  destruct (score_same rowsum digest m m' o det cache A HR) as [T S].
  destruct (score rowsum digest m o det cache) as [m1 r], (score rowsum digest m' o det cache) as [m1' r']. cbn [fst snd] in T, S.
  eapply both_bind; [exact S|]. intros a a' Ha. cbn. split; [apply upd_same; auto|exact Ha].
Qed.
Lemma y_pred_same (a a' : answer (N:=N)) : same_answer a a' -> y_pred a = y_pred a'.
Proof. destruct a, a'; cbn; try contradiction; [intros ->; reflexivity|intros [-> _]; reflexivity]. Qed.
Lemma partial_same (a a' : answer (N:=N)) : same_answer a a' -> partial_y_pred a = partial_y_pred a'.
Proof. destruct a, a'; cbn; try contradiction; [reflexivity|intros [_ ->]; reflexivity]. Qed.
Lemma n_trees_same st st' i : stores st st' -> n_trees_of st i = n_trees_of st' i.
Proof.
  intros H. unfold n_trees_of. assert (A := at_same st st' i H). destruct (nth_error st i) as [m|], (nth_error st' i) as [m'|]; try contradiction; [|reflexivity].
  cbn. destruct A as (T & _). destruct (layouts _ _ T) as (ts & ts' & ws & L & L' & E & _). f_equal.
  assert (E1 : e_ntrees (m_ens m) = Z.of_nat (length ts)) by apply L. assert (E2 : e_ntrees (m_ens m') = Z.of_nat (length ts')) by apply L'.
  rewrite E1, E2. f_equal. rewrite <- (map_length erase ts), E, map_length. reflexivity.
Qed.
Lemma max_trees_same st st' ms : stores st st' -> max_num_trees st ms = max_num_trees st' ms.
Proof.
  intros H. unfold max_num_trees. generalize 0 as a. induction ms as [|i ms IH]; intros a; cbn [foldM]; [reflexivity|].
  rewrite <- (n_trees_same st st' i H). destruct (n_trees_of st i); cbn [bind]; [apply IH|reflexivity].
Qed.

(** One loop over data sets and models. *)
Lemma grid_same {B} (f f' : obj (N:=N) -> list (model N) -> nat -> res (list (model N) * B)) ds ms :
  fits ds ->
  (forall o st st' i, rows_fit (snd o) -> stores st st' -> both step (f o st i) (f' o st' i)) ->
  forall st st', stores st st' -> both step (mapST (fun st o => mapST (f o) st ms) st ds) (mapST (fun st o => mapST (f' o) st ms) st' ds).
Proof.
  intros F H st st' Hs. rewrite Forall_forall in F. apply both_mapST; [|exact Hs]. intros t t' o Ho Ht. apply both_mapST; [|exact Ht].
  intros u u' i _ Hu. apply H; auto.
Qed.

Ltac scored Hs HR :=
  eapply both_bind; [eapply score_in_same; [exact Hs|exact HR]|];
  let r := fresh "r" in let r' := fresh "r'" in let E := fresh "E" in
  intros r r' [E ?]; rewrite <- ?(y_pred_same (snd r) (snd r')), <- ?(partial_same (snd r) (snd r')) by assumption.

Lemma model_performance_same st st' ds ms (metrics : list (evaluator (N:=N))) cache : stores st st' -> fits ds ->
  both step (model_performance rowsum digest st ds ms metrics cache) (model_performance rowsum digest st' ds ms metrics cache).
Proof.
  intros Hs F. unfold model_performance. apply (grid_same (fun o st i => _) (fun o st i => _)); auto. intros o t t' i HR Ht. scored Ht HR.
  apply both_same. intros y. apply both_same. intros row. cbn. auto.
Qed.

Lemma tree_wise_performance_same st st' ds ms (metrics : list (evaluator (N:=N))) k cache : stores st st' -> fits ds ->
  both step (tree_wise_performance rowsum digest st ds ms metrics k cache) (tree_wise_performance rowsum digest st' ds ms metrics k cache).
Proof.
  intros Hs F. unfold tree_wise_performance. rewrite <- (max_trees_same st st' ms Hs). apply both_same. intros mx. apply both_same. intros steps.
  eapply both_bind.
  - apply (grid_same (fun o st i => _) (fun o st i => _)); [exact F| |exact Hs]. intros o t t' i HR Ht. rewrite <- (n_trees_same t t' i Ht). scored Ht HR.
    apply both_same. intros parts. apply both_same. intros n. apply both_same. intros own. apply both_same. intros rows.
    destruct (_ <? _)%nat; cbn; auto.
  - intros r r' [H1 H2]. cbn. rewrite H2. auto.
Qed.

Lemma contribution_same st st' ds ms cache : stores st st' -> fits ds ->
  both step (tree_wise_average_contribution rowsum digest st ds ms cache) (tree_wise_average_contribution rowsum digest st' ds ms cache).
Proof.
  intros Hs F. unfold tree_wise_average_contribution. rewrite <- (max_trees_same st st' ms Hs). apply both_same. intros mx.
  apply (grid_same (fun o st i => _) (fun o st i => _)); [exact F| |exact Hs]. intros o t t' i HR Ht. rewrite <- (n_trees_same t t' i Ht). scored Ht HR.
  apply both_same. intros parts. apply both_same. intros n. apply both_same. intros c. cbn. auto.
Qed.

Lemma query_scores_same st st' ds ms (metrics : list (evaluator (N:=N))) cache : stores st st' -> fits ds ->
  both step (query_scores rowsum digest st ds ms metrics cache) (query_scores rowsum digest st' ds ms metrics cache).
Proof.
  intros Hs F. unfold query_scores. apply (grid_same (fun o st i => _) (fun o st i => _)); auto. intros o t t' i HR Ht. scored Ht HR.
  apply both_same. intros y. apply both_same. intros row. cbn. auto.
Qed.
Lemma query_wise_same st st' ds ms (metrics : list (evaluator (N:=N))) bins start stop cache : stores st st' -> fits ds ->
  both step (query_wise_performance rowsum digest st ds ms metrics bins start stop cache)
            (query_wise_performance rowsum digest st' ds ms metrics bins start stop cache).
Proof.
  intros Hs F. unfold query_wise_performance. eapply both_bind; [apply query_scores_same; eauto|]. intros r r' [H1 H2]. rewrite <- H2.
  repeat (apply both_same; intros ?). cbn. auto.
Qed.
Lemma query_class_same st st' ds ms (metrics : list (evaluator (N:=N))) classes cache : stores st st' -> fits ds ->
  both step (query_class_performance rowsum digest st ds ms metrics classes cache)
            (query_class_performance rowsum digest st' ds ms metrics classes cache).
Proof.
  intros Hs F. unfold query_class_performance. eapply both_bind; [apply query_scores_same; eauto|]. intros r r' [H1 H2]. rewrite <- H2.
  repeat (apply both_same; intros ?). cbn. auto.
Qed.
Lemma graded_same st st' ds ms bins start stop cache : stores st st' -> fits ds ->
  both step (document_graded_relevance rowsum digest st ds ms bins start stop cache)
            (document_graded_relevance rowsum digest st' ds ms bins start stop cache).
Proof.
  intros Hs F. unfold document_graded_relevance. eapply both_bind.
  - apply (grid_same (fun o st i => _) (fun o st i => _)); [exact F| |exact Hs]. intros o t t' i HR Ht. scored Ht HR.
    apply both_same. intros y. apply both_same. intros _. cbn. auto.
  - intros r r' [H1 H2]. rewrite <- H2. apply both_same. intros edges. apply both_same. intros labels.
    eapply both_bind.
    + apply (grid_same (fun o st i => _) (fun o st i => _)); [exact F| |exact H1]. intros o t t' i HR Ht.
      apply both_mapST; [|exact Ht]. intros u u' l _ Hu. scored Hu HR.
      apply both_same. intros y. apply both_same. intros a. apply both_same. intros c. cbn. auto.
    + intros q q' [G1 G2]. rewrite <- G2. apply both_same. intros c. cbn. auto.
Qed.
Lemma confusion_same (to_int : N -> Z) st st' ds ms skip cache : stores st st' -> fits ds ->
  both step (rank_confusion_matrix rowsum digest to_int st ds ms skip cache) (rank_confusion_matrix rowsum digest to_int st' ds ms skip cache).
Proof.
  intros Hs F. unfold rank_confusion_matrix. apply both_same. intros labels. eapply both_bind.
  - apply (grid_same (fun o st i => _) (fun o st i => _)); [exact F| |exact Hs]. intros o t t' i HR Ht. scored Ht HR.
    apply both_same. intros y. apply both_same. intros m. cbn. auto.
  - intros r r' [H1 H2]. rewrite <- H2. cbn. auto.
Qed.
Lemma significance_same (sum : list N -> N) choice st st' ds a b (metrics : list (evaluator (N:=N))) n_perm cache : stores st st' -> fits ds ->
  both step (statistical_significance sum digest rowsum choice st ds a b metrics n_perm cache)
            (statistical_significance sum digest rowsum choice st' ds a b metrics n_perm cache).
Proof.
  intros Hs F. unfold statistical_significance. apply both_mapST; [|exact Hs]. intros t t' [k o] Ho Ht. cbn [fst snd].
  assert (HR : rows_fit (snd o)) by (rewrite Forall_forall in F; apply F; eapply in_combine_r; exact Ho).
  scored Ht HR. apply both_same. intros ya. scored E HR. apply both_same. intros yb. apply both_same. intros row. cbn. auto.
Qed.
End Analyses.
