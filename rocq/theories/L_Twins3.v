(** Feature importance, shape and pruning of arrays that hold the same trees. *)
From Coq Require Import List ZArith Bool Lia Permutation.
From Verif Require Import Base Lists Num M_Dataset S_Dataset M_NDCG M_Ensemble S_Ensemble L_Ensemble L_Ensemble2 L_Ensemble3 L_QuickRank S_Twins L_Twins L_Twins2
  M_Effectiveness M_Topology L_Topology M_Feature S_Feature L_Feature L_Feature2 M_FeatureMetric L_FeatureMetric L_FeatureMetric2.
Import ListNotations.
Local Open Scope Z_scope.

Lemma both_foldM {S S' A} (R : S -> S' -> Prop) (f : S -> A -> res S) (f' : S' -> A -> res S') l :
  (forall s s' x, In x l -> R s s' -> both R (f s x) (f' s' x)) -> forall s s', R s s' -> both R (foldM f l s) (foldM f' l s').
Proof.
  induction l as [|x l IH]; intros H s s' Hs; cbn [foldM]; [exact Hs|].
  eapply both_bind; [apply H; [left; reflexivity|exact Hs]|]. intros a a' Ha. apply IH; [|exact Ha]. intros u u' y Hy. apply H. right. exact Hy.
Qed.

Section Feature.
Context {N : num}.
Variables e e' : ensemble N.

(** The same node in the two models. *)
Definition alike (i i' : Z) : Prop := exists t t', represents e t /\ represents e' t' /\ mark t = i /\ mark t' = i' /\ erase t = erase t'.

Lemma is_split_same (t t' : tree Z N) : erase t = erase t' -> is_split t = is_split t'.
Proof. destruct t, t'; try discriminate; reflexivity. Qed.
Lemma size_erase {A} (t : tree A N) : size (erase t) = size t.
Proof. induction t; cbn; auto. Qed.
Lemma total_same (ts ts' : list (tree Z N)) : map erase ts = map erase ts' -> total_size ts = total_size ts'.
Proof.
  intros H. unfold total_size. assert (G : forall us : list (tree Z N), map size us = map size (map erase us)).
  { intros us. rewrite map_map. apply map_ext. intros t. symmetry. apply size_erase. }
  rewrite (G ts), (G ts'), H. reflexivity.
Qed.
Lemma leaf_cell_same t t' : represents e t -> represents e' t' -> erase t = erase t' -> leaf_cell e (mark t) = leaf_cell e' (mark t').
Proof.
  intros H H' E. rewrite (leaf_cell_ok e [] 0 [] eq_refl t H (left_mark e [] 0 [] eq_refl t H)), (leaf_cell_ok e' [] 0 [] eq_refl t' H' (left_mark e' [] 0 [] eq_refl t' H')). rewrite (is_split_same t t' E). reflexivity.
Qed.
Lemma is_leaf_same t t' : represents e t -> represents e' t' -> erase t = erase t' -> is_leaf_node e (mark t) = is_leaf_node e' (mark t').
Proof. intros H H' E. rewrite (leaf_ok e (mkDataset [] 0 [] [] []) eq_refl t H), (leaf_ok e' (mkDataset [] 0 [] [] []) eq_refl t' H'), (is_split_same t t' E). reflexivity. Qed.

(** The same trees in the same order: root [k] of both is the same node. *)
Hypothesis HT : same_trees e e'.
Lemma root_same k : both alike (mem_get (e_root e) k) (mem_get (e_root e') k).
Proof.
  destruct (layouts e e' HT) as (ts & ts' & ws & L & L' & E & _ & _). destruct L as ((_ & Er & _ & _ & F) & _), L' as ((_ & Er' & _ & _ & F') & _).
  rewrite Er, Er'. unfold mem_get, zget. destruct (k <? 0); [reflexivity|]. generalize (Z.to_nat k) as j. clear Er Er'.
  revert ts' E F'. induction ts as [|t ts IH]; intros [|t' ts'] E F' j; try discriminate; [destruct j; reflexivity|].
  cbn [map] in E. inversion E. inversion F; subst. inversion F'; subst. destruct j as [|j]; cbn [map nth_error]; [|apply IH; auto].
  cbn. exists t, t'. auto.
Qed.
Lemma sizes_same : length (e_left e) = length (e_left e') /\ e_ntrees e = e_ntrees e' /\ e_nnodes e = e_nnodes e' /\ e_weight e = e_weight e'.
Proof.
  destruct (layouts e e' HT) as (ts & ts' & ws & L & L' & E & _ & _).
  destruct L as ((A1 & _ & A3 & _) & _ & A5 & A6 & _), L' as ((B1 & _ & B3 & _) & _ & B5 & B6 & _).
  rewrite A1, A3, A5, A6, B1, B3, B5, B6. rewrite (total_same ts ts' E). repeat split. f_equal. rewrite <- (map_length erase ts), E, map_length. reflexivity.
Qed.

(** *** MSE and RMSE *)
Variable red : list N -> N.
Definition qalike (q q' : qnode) : Prop := alike (q_id q) (q_id q') /\ q_start q = q_start q' /\ q_end q = q_end q'.

Lemma visit_same X nf n yt s q q' : qalike q q' ->
  both (fun p p' => fst p = fst p' /\ Forall2 qalike (snd p) (snd p')) (visit red e X nf n yt s q) (visit red e' X nf n yt s q').
Proof.
  intros ((t & t' & R & R' & M & M' & E) & Es & Ee). unfold visit. rewrite <- Es, <- Ee, <- M, <- M'.
  destruct t as [i v|i f thr l r], t' as [i' v'|i' f' thr' l' r']; try discriminate; cbn [represents mark erase] in *; inversion E; subst.
  - destruct R as (_ & _ & R3 & R4), R' as (_ & _ & R3' & R4').
    rewrite (mem_get_zget _ _ _ R3), (mem_get_zget _ _ _ R3'), (mem_get_zget _ _ _ R4), (mem_get_zget _ _ _ R4'). cbn [bind]. reflexivity.
  - destruct R as (R1 & R2 & R3 & R4 & RL & RR), R' as (R1' & R2' & R3' & R4' & RL' & RR').
    rewrite (mem_get_zget _ _ _ R3), (mem_get_zget _ _ _ R3'), (mem_get_zget _ _ _ R4), (mem_get_zget _ _ _ R4'). cbn [bind].
    apply both_same. intros c. apply both_same. intros cnt. apply both_same. intros [[[si end_] suml] sumr].
    apply both_same. intros g. apply both_same. intros w. apply both_same. intros imp.
    rewrite (mem_get_zget _ _ _ R1), (mem_get_zget _ _ _ R1'), (mem_get_zget _ _ _ R2), (mem_get_zget _ _ _ R2'). cbn [bind].
    rewrite <- (leaf_cell_same l l') by assumption. rewrite <- (leaf_cell_same r r') by assumption.
    apply both_same. intros ll. apply both_same. intros rl. cbn [both fst snd]. split; [reflexivity|].
    apply Forall2_app.
    + destruct (negb rl && _); constructor; [|constructor]. split; [|auto]. exists r, r'. auto.
    + destruct (negb ll && _); constructor; [|constructor]. split; [|auto]. exists l, l'. auto.
Qed.
Lemma visit_all_same X nf n yt : forall fuel s qs qs', Forall2 qalike qs qs' ->
  visit_all red fuel e X nf n yt s qs = visit_all red fuel e' X nf n yt s qs'.
Proof.
  induction fuel as [|fuel IH]; intros s qs qs' H; destruct H as [|q q' qs qs' Hq Hqs]; cbn [visit_all]; try reflexivity.
  apply eq_of_both. eapply both_bind; [apply visit_same; exact Hq|]. intros r r' [E1 E2]. rewrite <- E1. apply both_of_eq. apply IH.
  apply Forall2_app; assumption.
Qed.
Lemma importance_tree_same X y nf n k imp cnt yp : importance_tree red e X y nf n k imp cnt yp = importance_tree red e' X y nf n k imp cnt yp.
Proof.
  unfold importance_tree. destruct sizes_same as (E1 & _ & _ & E4). rewrite <- E1, <- E4. apply eq_of_both. apply both_same. intros yt.
  eapply both_bind; [apply root_same|]. intros i i' Hi.
  rewrite (visit_all_same X nf n yt (S (length (e_left e))) _ [mkQ i 0 (u32 (n - 1))] [mkQ i' 0 (u32 (n - 1))]); [apply both_eq|].
  constructor; [|constructor]. split; [exact Hi|auto].
Qed.
Lemma feature_importance_same (d : dataset N) rmse normalize : feature_importance red e d rmse normalize = feature_importance red e' d rmse normalize.
Proof.
  unfold feature_importance. f_equal. unfold eff_importance. destruct sizes_same as (_ & E2 & _). rewrite <- E2. f_equal.
  generalize (repeat (@nzero N) (ds_nf d), repeat 0 (ds_nf d), repeat (@nzero N) (length (ds_X d))) as s.
  induction (zrange 0 (e_ntrees e)) as [|k l IH]; intros s; cbn [foldM]; [reflexivity|].
  destruct s as [[imp cnt] yp]. rewrite importance_tree_same. destruct (importance_tree red e' _ _ _ _ _ _ _ _) as [[[[a b] c] dd]|er]; cbn [bind]; auto.
Qed.

(** *** Other metrics *)
Variable sum : list N -> N.
Definition malike (q q' : mitem) : Prop :=
  (exists t t', represents e t /\ represents e' t' /\ is_split t = true /\ mark t = fst (fst q) /\ mark t' = fst (fst q') /\ erase t = erase t') /\
  snd (fst q) = snd (fst q') /\ snd q = snd q'.
Lemma metric_visit_same (d : dataset N) (metric : evaluator (N:=N)) yt yp s q q' : malike q q' ->
  both (fun p p' => fst p = fst p' /\ Forall2 malike (snd p) (snd p')) (metric_visit sum e d metric yt yp s q) (metric_visit sum e' d metric yt yp s q').
Proof.
  destruct q as [[i depth] docs], q' as [[i' depth'] docs']. intros ((t & t' & R & R' & Hs & M & M' & E) & E1 & E2). cbn [fst snd] in *. subst depth' docs' i i'.
  unfold metric_visit. destruct t as [i v|i f thr l r], t' as [i' v'|i' f' thr' l' r']; try discriminate. cbn [represents mark erase] in *. inversion E; subst.
  destruct R as (R1 & R2 & R3 & R4 & RL & RR), R' as (R1' & R2' & R3' & R4' & RL' & RR').
  rewrite (py_get_zget _ _ _ R3), (py_get_zget _ _ _ R3'), (py_get_zget _ _ _ R4), (py_get_zget _ _ _ R4'). cbn [bind].
  repeat (apply both_same; intro).
  rewrite (py_get_zget _ _ _ R1), (py_get_zget _ _ _ R1'), (py_get_zget _ _ _ R2), (py_get_zget _ _ _ R2'). cbn [bind].
  rewrite <- (is_leaf_same l l'), <- (is_leaf_same r r') by assumption.
  rewrite (leaf_ok e (mkDataset [] 0 [] [] []) eq_refl l RL), (leaf_ok e (mkDataset [] 0 [] [] []) eq_refl r RR). cbn [bind both fst snd]. split; [reflexivity|]. apply Forall2_app.
  - destruct (is_split l) eqn:Hl; constructor; [|constructor]. split; [|auto]. exists l, l'. auto 10.
  - destruct (is_split r) eqn:Hr; constructor; [|constructor]. split; [|auto]. exists r, r'. auto 10.
Qed.
Lemma metric_visits_same (d : dataset N) (metric : evaluator (N:=N)) yt yp : forall fuel s qs qs', Forall2 malike qs qs' ->
  metric_visits sum fuel e d metric yt yp s qs = metric_visits sum fuel e' d metric yt yp s qs'.
Proof.
  induction fuel as [|fuel IH]; intros s qs qs' H; destruct H as [|q q' qs qs' Hq Hqs]; cbn [metric_visits]; try reflexivity.
  apply eq_of_both. eapply both_bind; [apply metric_visit_same; exact Hq|]. intros r r' [E1 E2]. rewrite <- E1. apply both_of_eq. apply IH.
  apply Forall2_app; assumption.
Qed.
End Feature.

Lemma metric_importance_same {N : num} (sum : list N -> N) (e e' : ensemble N) shapes ws (d : dataset N) (metric : evaluator (N:=N)) normalize :
  holds e shapes ws -> holds e' shapes ws -> Forall (fun t => Forall (fun f => 0 <= f) (splits t)) shapes ->
  Forall (fun t => splits t <> []) shapes ->
  metric_importance sum e d metric normalize = metric_importance sum e' d metric normalize.
Proof.
  intros H H' P S. assert (HT : same_trees e e') by (exists shapes, ws; auto). destruct (sizes_same e e' HT) as (E1 & E2 & _ & E4).
  destruct H as (ts & L & E), H' as (ts' & L' & E').
  unfold metric_importance. rewrite <- E2. f_equal.
  generalize (repeat (@nzero N) (ds_nf d), repeat 0 (ds_nf d), repeat (@nzero N) (n_instances d)) as s.
  assert (G : forall k, both (fun i i' => malike e e' (i, 0%nat, None) (i', 0%nat, None)) (py_get (e_root e) k) (py_get (e_root e') k)).
  { destruct L as ((_ & Er & _ & _ & F) & _), L' as ((_ & Er' & _ & _ & F') & _). intros k. rewrite Er, Er'. unfold py_get. rewrite !map_length.
    replace (length ts') with (length ts) by (rewrite <- (map_length erase ts), E, <- E', map_length; reflexivity).
    generalize (if k <? 0 then k + Z.of_nat (length ts) else k) as z. intros z. unfold zget. destruct (z <? 0); [reflexivity|].
    generalize (Z.to_nat z) as j. clear - F F' E E' S. revert ts ts' F F' E E'. induction S as [|sh shapes Hsh _ IH]; intros [|t ts] [|t' ts'] F F' E E' j; try discriminate;
      [destruct j; reflexivity|]. cbn [map] in E, E'. inversion E; inversion E'; subst. inversion F; inversion F'; subst.
    destruct j as [|j]; cbn [map nth_error]; [|apply IH; auto]. cbn. split; [|auto]. exists t, t'. cbn [fst snd]. rewrite splits_erase in Hsh. assert (is_split t = true) by (destruct t; [contradiction Hsh|]; reflexivity). auto 10. }
  induction (zrange 0 (e_ntrees e)) as [|k l IH]; intros s; cbn [foldM]; [reflexivity|].
  assert (K : metric_tree sum e d metric s k = metric_tree sum e' d metric s k).
  { unfold metric_tree. destruct s as [[imp cnt] yp]. rewrite <- E1, <- E4. apply eq_of_both. eapply both_bind; [apply G|]. intros i i' Hi.
    rewrite (metric_visits_same e e' sum d metric _ yp _ _ [(i, 0%nat, None)] [(i', 0%nat, None)]); [apply both_eq|]. constructor; [exact Hi|constructor]. }
  rewrite K. destruct (metric_tree sum e' d metric s k); cbn [bind]; auto.
Qed.
