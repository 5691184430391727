(** Scores with learning rate and base score (C32), caching (C34). *)
From Coq Require Import List ZArith Lia Bool Permutation Reals Lra.
From Verif Require L_Dataset L_Dataset3.
From Verif Require Import Base Lists Num M_Dataset M_NDCG M_Ensemble S_Dataset S_Ensemble L_Ensemble L_Ensemble2.
Import ListNotations.
Local Open Scope Z_scope.

(** ** Basic scoring from detailed scoring *)
Section Generic.
Context {N : num}.
Implicit Types e : ensemble N.
Variable rowsum : list N -> N.
Variable digest : list (list N) -> list N -> list Z -> Z.

Definition seq_sum (l : list N) : N := fold_left (fun a b => nf32 (nadd a b)) l nzero.

Lemma foldM_of_mapM {A B C} (g : A -> res B) (k : C -> B -> C) l : forall rows b,
  mapM g l = Ok rows ->
  foldM (fun y t => do s <- g t; Ok (k y s)) l b = Ok (fold_left k rows b).
Proof.
  induction l as [|x l IH]; intros rows b H; cbn [mapM foldM] in *.
  - injection H as <-. reflexivity.
  - destruct (g x) as [r|er]; [|discriminate]. cbn [bind] in *.
    destruct (mapM g l) as [rs|er]; [|discriminate]. cbn [bind] in H. injection H as <-.
    cbn [fold_left]. apply IH. reflexivity.
Qed.

Lemma detail_score e row rows : detail_instance e row = Ok rows ->
  score_instance e row = Ok (seq_sum (map snd rows)).
Proof.
  intros H. unfold detail_instance in H.
  pose proof (foldM_of_mapM _ (fun y (p : Z * N) => nf32 (nadd y (snd p))) _ _ nzero H) as E.
  unfold score_instance. unfold seq_sum.
  assert (E2 : forall (l : list (Z * N)) z, fold_left (fun y p => nf32 (nadd y (snd p))) l z
                     = fold_left (fun a b => nf32 (nadd a b)) (map snd l) z).
  { induction l as [|p l IH]; intros z; [reflexivity|]. cbn [map fold_left]. apply IH. }
  rewrite <- E2, <- E. clear.
  generalize (@nzero N) as z. induction (zrange 0 (e_ntrees e)) as [|t l IH]; intros z; [reflexivity|].
  cbn [foldM]. destruct (exit_node e row t) as [leaf|er]; [|reflexivity]. cbn [bind].
  destruct (leaf_score e t leaf) as [s|er]; [|reflexivity]. cbn [bind snd]. apply IH.
Qed.

Lemma basic_of_detailed e X l p : detailed_scoring e X = Ok (l, p) -> basic_scoring e X = Ok (map seq_sum p).
Proof.
  unfold detailed_scoring, basic_scoring. destruct (e_ntrees e <? 0); [discriminate|].
  intros H. destruct (mapM (detail_instance e) X) as [m|er] eqn:E; [|discriminate]. cbn [bind] in H. injection H as <- <-.
  revert m E. induction X as [|row X IH]; intros m E; cbn [mapM] in E.
  - injection E as <-. reflexivity.
  - destruct (detail_instance e row) as [r|er] eqn:Er; [|discriminate]. cbn [bind] in E.
    destruct (mapM (detail_instance e) X) as [m'|er]; [|discriminate]. cbn [bind] in E. injection E as <-.
    cbn [mapM map]. rewrite (detail_score _ _ _ Er). cbn [bind]. rewrite (IH m' eq_refl). reflexivity.
Qed.

(** ** Cache invariant *)
Definition fresh (m : model N) (X : list (list N)) (det : bool) (s : scorer N) : Prop :=
  exists s0 y, scorer_score rowsum (m_ens m) X new_scorer det = Ok (s0, y) /\ s = adjust m det s0.

Lemma key_alike k o : scores_alike digest k o ->
  exists b, key_eq digest k o = Ok b /\ (b = true -> ds_X (snd k) = ds_X (snd o)).
Proof.
  intros [->|[Hid H]]; unfold key_eq.
  - rewrite Z.eqb_refl. cbn [negb]. rewrite Nat.eqb_refl. exists true. auto.
  - destruct (Z.eqb_spec (ds_hash digest (snd k)) (ds_hash digest (snd o))) as [E|E]; cbn [negb].
    + destruct (H E) as (b & E1 & E2). replace (Nat.eqb (fst k) (fst o)) with false by (symmetry; apply Nat.eqb_neq; exact Hid).
      exists b. auto.
    + exists false. split; [reflexivity|discriminate].
Qed.

Lemma find_alike (c : list (obj * scorer N)) o : (forall k s, In (k, s) c -> scores_alike digest k o) ->
  exists r, scorer_find digest c o = Ok r /\
    (forall s, r = Some s -> exists k, In (k, s) c /\ ds_X (snd k) = ds_X (snd o)).
Proof.
  induction c as [|[k s] c IH]; intros H; cbn [scorer_find].
  - exists None. split; [reflexivity|discriminate].
  - destruct (key_alike k o) as (b & E & HX); [apply (H k s); left; reflexivity|]. rewrite E. cbn [bind]. destruct b.
    + exists (Some s). split; [reflexivity|]. intros s' Es. injection Es as <-. exists k. split; [left; reflexivity|auto].
    + destruct IH as (r & E2 & H2); [intros k' s' Hin; apply (H k' s'); right; exact Hin|].
      exists r. split; [exact E2|]. intros s' Es. destruct (H2 s' Es) as (k' & Hin & HX'). exists k'. split; [right; exact Hin|exact HX'].
Qed.

Lemma store_inv (c : list (obj * scorer N)) o s c' : scorer_store digest c o s = Ok c' ->
  (forall k s, In (k, s) c -> scores_alike digest k o) ->
  forall k s', In (k, s') c' -> (In (k, s') c) \/ (s' = s /\ ((k = o) \/ (exists s0, In (k, s0) c) /\ ds_X (snd k) = ds_X (snd o))).
Proof.
  revert c'. induction c as [|[k0 s0] c IH]; intros c' E H k s' Hin; cbn [scorer_store] in E.
  - injection E as <-. destruct Hin as [Hin|[]]. injection Hin as <- <-. right. auto.
  - destruct (key_alike k0 o) as (b & Eb & HX); [apply (H k0 s0); left; reflexivity|]. rewrite Eb in E. cbn [bind] in E. destruct b.
    + injection E as <-. destruct Hin as [Hin|Hin].
      * injection Hin as <- <-. right. split; [reflexivity|]. right. split; [exists s0; left; reflexivity|auto].
      * left. right. exact Hin.
    + destruct (scorer_store digest c o s) as [c1|er] eqn:E1; [|discriminate]. cbn [bind] in E. injection E as <-.
      destruct Hin as [Hin|Hin].
      * injection Hin as <- <-. left. left. reflexivity.
      * destruct (IH c1 eq_refl) with (k := k) (s' := s') as [H1|(H1 & H2)]; auto.
        { intros k1 s1 Hk1. apply (H k1 s1). right. exact Hk1. }
        { left. right. exact H1. }
        right. split; [exact H1|]. destruct H2 as [H2|((s1 & H2) & H3)]; [left; exact H2|right].
        split; [exists s1; right; exact H2|exact H3].
Qed.

Lemma store_total (c : list (obj * scorer N)) o s : (forall k s, In (k, s) c -> scores_alike digest k o) ->
  exists c', scorer_store digest c o s = Ok c'.
Proof.
  induction c as [|[k s'] c IH]; intros Hc; cbn [scorer_store]; [eauto|].
  destruct (key_alike k o) as (b & Eb & _); [apply (Hc k s'); left; reflexivity|]. rewrite Eb. cbn [bind].
  destruct b; [eauto|]. destruct IH as (c' & Ec'); [intros k1 s1 Hk1; apply (Hc k1 s1); right; exact Hk1|].
  rewrite Ec'. cbn [bind]. eauto.
Qed.

Lemma scorable_score e (o : obj) det : scorable e o -> check_features e (snd o) = Ok tt ->
  exists s y, scorer_score rowsum e (ds_X (snd o)) new_scorer det = Ok (s, y).
Proof.
  intros H Hc. destruct (H Hc) as [[l p] E]. unfold scorer_score. cbn [negb andb orb is_some sc_y sc_leaves new_scorer].
  destruct det; cbn [orb andb].
  - rewrite E. do 2 eexists. reflexivity.
  - rewrite (basic_of_detailed _ _ _ _ E). do 2 eexists. reflexivity.
Qed.

Definition inv (m0 : model N) (seen : list obj) (m : model N) : Prop :=
  m_ens m = m_ens m0 /\ m_lr m = m_lr m0 /\ m_base m = m_base m0 /\
  forall k s, In (k, s) (m_cache m) -> In k seen /\ exists det, fresh m0 (ds_X (snd k)) det s.

Lemma adjust_same (m m0 : model N) det s : m_lr m = m_lr m0 -> m_base m = m_base m0 -> adjust m det s = adjust m0 det s.
Proof. intros E1 E2. unfold adjust. rewrite E1, E2. reflexivity. Qed.

Lemma score_inv (m0 : model N) seen m o det cache : inv m0 seen m ->
  (forall k, In k seen -> scores_alike digest k o) -> scorable (m_ens m0) o ->
  inv m0 (o :: seen) (fst (score rowsum digest m o det cache)).
Proof.
  intros (H1 & H2 & H3 & H4) Ha Hsc.
  assert (Hw : inv m0 (o :: seen) m).
  { repeat split; auto. - right. eapply H4; eauto. - eapply H4; eauto. }
  unfold score. destruct (check_features (m_ens m) (snd o)) as [[]|er] eqn:Echk; [|exact Hw]. cbn [bind].
  destruct (scorer_find digest (m_cache m) o) as [found|er]; [|exact Hw].
  destruct (match found with Some _ => _ | None => _ end) as [s|]; [exact Hw|]. cbv zeta.
  rewrite H1 in Echk. destruct (scorable_score _ o det Hsc Echk) as (s & y & Es). rewrite <- H1 in Es. rewrite Es.
  destruct cache; [|exact Hw].
  assert (Hal : forall k s, In (k, s) (m_cache m) -> scores_alike digest k o) by (intros k s' Hk; apply Ha; eapply H4; eauto).
  destruct (store_total (m_cache m) o new_scorer Hal) as [c0 Ec0]. rewrite Ec0. cbn [bind].
  destruct (store_total (m_cache m) o (adjust m det s) Hal) as [c Ec]. rewrite Ec. cbn [bind].
  assert (Hs : fresh m0 (ds_X (snd o)) det (adjust m det s)).
  { exists s, y. rewrite <- H1. split; [exact Es|]. apply adjust_same; auto. }
  cbn [fst]. split; [exact H1|]. split; [exact H2|]. split; [exact H3|]. cbn [m_cache].
  intros k1 s1 Hk1.
  destruct (store_inv _ _ _ _ Ec) with (k := k1) (s' := s1) as [H'|(-> & [->|((s2 & H') & HX)])]; auto.
  - split; [right; eapply H4; eauto|eapply H4; eauto].
  - split; [left; reflexivity|exists det; exact Hs].
  - split; [right; eapply H4; eauto|]. exists det. rewrite HX. exact Hs.
Qed.

Lemma after_inv (m0 : model N) : m_cache m0 = [] -> forall h,
  (forall k k', In k (scored h) -> In k' (scored h) -> scores_alike digest k k') ->
  (forall k, In k (scored h) -> scorable (m_ens m0) k) ->
  inv m0 (scored h) (score_after rowsum digest m0 h).
Proof.
  intros H0 h. induction h as [|c h IH] using rev_ind; intros Ha Hsc.
  - split; [reflexivity|]. split; [reflexivity|]. split; [reflexivity|].
    cbn [score_after fold_left]. rewrite H0. intros k s [].
  - unfold score_after. rewrite fold_left_app. cbn [fold_left].
    unfold scored in *. rewrite flat_map_app in *. cbn [flat_map] in *.
    assert (IH' : inv m0 (scored h) (score_after rowsum digest m0 h)).
    { apply IH; [intros k k' Hk Hk'; apply Ha|intros k Hk; apply Hsc]; apply in_or_app; left; assumption. }
    unfold scored, score_after in IH'. destruct c as [o det cache|]; cbn [score_step].
    + pose proof (score_inv m0 _ _ o det cache IH') as H.
      destruct H as (H1 & H2 & H3 & H4).
      { intros k Hk. apply Ha; apply in_or_app; [left; exact Hk|right; left; reflexivity]. }
      { apply Hsc. apply in_or_app. right. left. reflexivity. }
      split; [exact H1|]. split; [exact H2|]. split; [exact H3|]. intros k s Hk.
      destruct (H4 k s Hk) as [Hin Hf]. split; [|exact Hf].
      apply in_or_app. destruct Hin as [<-|Hin]; [right; left; reflexivity|left; exact Hin].
    + destruct IH' as (H1 & H2 & H3 & H4). split; [exact H1|]. split; [exact H2|]. split; [exact H3|]. intros k s [].
Qed.

Definition basic_answer (r : res (answer (N:=N))) (y : option (list N)) : Prop := r = Ok (Basic y).

Theorem C34_generic_lemma (m0 : model N) h o det cache : m_cache m0 = [] ->
  (forall k k', In k (o :: scored h) -> In k' (o :: scored h) -> scores_alike digest k k') ->
  (forall k, In k (o :: scored h) -> scorable (m_ens m0) k) ->
  snd (score rowsum digest (score_after rowsum digest m0 h) o det cache)
    = snd (score rowsum digest m0 o det false)
  \/ (det = false /\ exists y p l,
        snd (score rowsum digest m0 o true false) = Ok (Detailed (Some y) (Some p) (Some l)) /\
        snd (score rowsum digest (score_after rowsum digest m0 h) o det cache) = Ok (Basic (Some y))).
Proof.
  intros H0 Ha Hsc.
  assert (Hi : inv m0 (scored h) (score_after rowsum digest m0 h)).
  { apply after_inv; auto; [intros k k' Hk Hk'; apply Ha|intros k Hk; apply Hsc]; right; assumption. }
  destruct Hi as (H1 & H2 & H3 & H4). set (m := score_after rowsum digest m0 h) in *.
  unfold score. rewrite H0, H1. cbn [scorer_find].
  destruct (check_features (m_ens m0) (snd o)) as [[]|er] eqn:Echk; [|left; reflexivity]. cbn [bind].
  assert (Hal : forall k s, In (k, s) (m_cache m) -> scores_alike digest k o).
  { intros k s Hk. apply Ha; [right; eapply H4; eauto|left; reflexivity]. }
  destruct (find_alike (m_cache m) o Hal) as (r & Er & Hr).
  rewrite Er. cbv zeta. cbn [bind].
  assert (Hfresh : snd (match (if cache then do c <- scorer_store digest (m_cache m) o new_scorer; Ok (mkModel (m_ens m0) (m_lr m) (m_base m) c) else Ok m) with
      | Err e => (m, Err e)
      | Ok m1 => match scorer_score rowsum (m_ens m0) (ds_X (snd o)) new_scorer det with
          | Err e => (m1, Err e)
          | Ok (s, _) => match (if cache then do c <- scorer_store digest (m_cache m) o (adjust m det s); Ok (mkModel (m_ens m0) (m_lr m) (m_base m) c) else Ok m) with
              | Err e => (m1, Err e)
              | Ok m2 => (m2, Ok (answer_of det (adjust m det s))) end end end)
    = snd (match scorer_score rowsum (m_ens m0) (ds_X (snd o)) new_scorer det with
      | Err e => (m0, Err e)
      | Ok (s, _) => (m0, Ok (answer_of det (adjust m0 det s))) end)).
  { destruct (scorable_score _ o det (Hsc o (or_introl eq_refl)) Echk) as (s & y & Es). rewrite Es.
    rewrite (adjust_same m m0 det s H2 H3). destruct cache; [|reflexivity].
    destruct (store_total (m_cache m) o new_scorer Hal) as [c0 Ec0]. rewrite Ec0. cbn [bind].
    destruct (store_total (m_cache m) o (adjust m0 det s) Hal) as [c Ec]. rewrite Ec. reflexivity. }
  destruct r as [s|].
  - destruct (Hr s eq_refl) as (k & Hk & HX). destruct (H4 k s Hk) as (_ & dt & s0 & y0 & Es & ->).
    rewrite HX in Es.
    destruct (det && negb (is_some (sc_partial (adjust m0 dt s0)))) eqn:Ed.
    + left. exact Hfresh.
    + destruct det.
      * cbn [andb] in Ed. apply negb_false_iff in Ed. destruct dt.
        -- left. rewrite Es. cbn [snd]. reflexivity.
        -- exfalso. unfold scorer_score in Es. cbn [negb andb orb is_some sc_y new_scorer] in Es.
           destruct (basic_scoring (m_ens m0) (ds_X (snd o))) as [yb|er]; [|discriminate]. cbn [bind] in Es.
           injection Es as <- _. unfold adjust in Ed. destruct (neqb (m_lr m0) none), (truthy (m_base m0)); discriminate.
      * destruct dt.
        -- right. split; [reflexivity|].
           unfold scorer_score in Es. cbn [negb andb orb is_some sc_y sc_leaves new_scorer] in Es.
           destruct (detailed_scoring (m_ens m0) (ds_X (snd o))) as [[l p]|er] eqn:Edet; [|discriminate].
           cbn [bind fst snd] in Es. injection Es as <- _.
           unfold scorer_score. cbn [negb andb orb is_some sc_y sc_leaves new_scorer]. rewrite Edet. cbn [bind fst snd].
           unfold answer_of, adjust. destruct (neqb (m_lr m0) none), (truthy (m_base m0));
             cbn [sc_y sc_partial sc_leaves option_map]; eauto 10.
        -- left. rewrite Es. cbn [snd]. reflexivity.
  - left. exact Hfresh.
Qed.

(** When the row sum is the left-to-right one, nothing depends on the cache. *)
Theorem C34_sum_lemma (m0 : model N) h o det cache : (forall l, rowsum l = seq_sum l) -> m_cache m0 = [] ->
  (forall k k', In k (o :: scored h) -> In k' (o :: scored h) -> scores_alike digest k k') ->
  (forall k, In k (o :: scored h) -> scorable (m_ens m0) k) ->
  snd (score rowsum digest (score_after rowsum digest m0 h) o det cache)
    = snd (score rowsum digest m0 o det false).
Proof.
  intros Hs H0 Ha Hsc. destruct (C34_generic_lemma m0 h o det cache H0 Ha Hsc) as [E|(-> & y & p & l & E1 & E2)]; [exact E|].
  rewrite E2. clear E2. revert E1. unfold score. rewrite H0. cbn [scorer_find].
  destruct (check_features (m_ens m0) (snd o)) as [u|er]; [|discriminate]. cbn [bind].
  unfold scorer_score. cbn [negb andb orb is_some sc_y sc_leaves new_scorer].
  destruct (detailed_scoring (m_ens m0) (ds_X (snd o))) as [[l' p']|er] eqn:Edet; [|discriminate].
  cbn [bind fst snd]. rewrite (basic_of_detailed _ _ _ _ Edet). cbn [bind snd].
  intros E1. unfold answer_of in *. injection E1 as E1 _ _.
  rewrite <- E1. f_equal. f_equal. unfold adjust. rewrite (map_ext _ _ Hs).
  destruct (neqb (m_lr m0) none), (truthy (m_base m0)); reflexivity.
Qed.
End Generic.

(** ** What score returns, on an empty cache *)
Section Fresh.
Context {N : num}.
Variable rowsum : list N -> N.
Variable digest : list (list N) -> list N -> list Z -> Z.

Lemma adjust_parts (m : model N) det y p l :
  let mulr v := if neqb (m_lr m) none then v else nf32 (nmul v (m_lr m)) in
  let addb v := match truthy (m_base m) with None => v | Some b => nf32 (nadd v b) end in
  let addf r := match truthy (m_base m) with None => r | Some b => add_first b r end in
  adjust m det (mkScorer (Some y) p l)
  = mkScorer (Some (map (fun v => addb (mulr v)) y))
      (if det then option_map (map (fun r => addf (map mulr r))) p else p) l.
Proof.
  cbv zeta. unfold adjust.
  assert (Hid : forall (q : list (list N)), map (fun r => map (fun v => v) r) q = q).
  { intros q. rewrite (map_ext _ (fun r => r)); [apply map_id|intros r; apply map_id]. }
  destruct (neqb (m_lr m) none), (truthy (m_base m)) as [b|]; cbn [sc_y sc_partial sc_leaves option_map];
    (apply (f_equal2 (fun u v => mkScorer u v l)); [f_equal; rewrite ?map_map, ?map_id; reflexivity|]);
    (destruct det; [|reflexivity]); (destruct p as [p|]; [|reflexivity]); cbn [option_map]; f_equal;
    rewrite ?map_map; try reflexivity.
  - apply map_ext. intros r. rewrite map_id. reflexivity.
  - symmetry. apply Hid.
Qed.

Theorem C37_score_lemma (m : model N) o det cache ts ws :
  laid_out (m_ens m) ts ws -> ts <> [] -> nonneg_features ts -> rows_fit (snd o) -> m_cache m = [] ->
  let r := snd (score rowsum digest m o det cache) in
  (r = Err RuntimeError <-> too_wide (ds_nf (snd o)) ts) /\ (r <> Err RuntimeError -> exists a, r = Ok a).
Proof.
  intros HL Hne Hpos Hrow H0. cbv zeta. unfold score. rewrite H0. cbn [scorer_find].
  destruct (C37_check_lemma _ _ _ (snd o) HL Hne) as [[-> Hw]|[-> Hw]]; cbn [bind].
  - cbn [snd]. split; [tauto|]. intros H. destruct (H eq_refl).
  - assert (Hc : forall row, In row (ds_X (snd o)) -> covers row ts).
    { intros row Hr. unfold rows_fit in Hrow. rewrite Forall_forall in Hrow.
      eapply (covers_of_check (m_ens m) ts ws); eauto. }
    unfold scorer_score. cbn [negb andb orb is_some sc_y sc_leaves new_scorer].
    destruct HL as [He _].
    destruct det; cbn [orb andb].
    + rewrite (C32_lemma _ _ _ _ He Hc). cbn [bind fst snd].
      destruct cache; cbn [scorer_store bind snd]; (split; [split; [discriminate|tauto]|intros _; eexists; reflexivity]).
    + rewrite (C31_lemma _ _ _ _ He Hc). cbn [bind fst snd].
      destruct cache; cbn [scorer_store bind snd]; (split; [split; [discriminate|tauto]|intros _; eexists; reflexivity]).
Qed.
End Fresh.

(** ** Exact arithmetic *)
Local Open Scope R_scope.
Lemma fold_total l : forall z : R, fold_left (fun a b : R => a + b) l z = z + Rtotal l.
Proof.
  induction l as [|x l IH]; intros z; cbn [fold_left Rtotal fold_right]; [lra|].
  rewrite IH. unfold Rtotal. lra.
Qed.
Lemma seq_sum_total (l : list (car RE)) : seq_sum (N:=RE) l = Rtotal l.
Proof.
  unfold seq_sum. change (fold_left (fun a b : R => a + b) l 0 = Rtotal l). rewrite fold_total. lra.
Qed.
Lemma tree_scores_real ws ts row :
  tree_scores (N:=RE) ws ts row = map (fun p => fst p * snd (exit_leaf (N:=RE) row (snd p))) (combine ws ts).
Proof.
  unfold tree_scores. apply map_ext. intros [w t]. cbn [fst snd].
  change (snd (exit_leaf (N:=RE) row t) * w = w * snd (exit_leaf (N:=RE) row t)). apply Rmult_comm.
Qed.
Lemma ensemble_score_real ws ts row : ensemble_score (N:=RE) ws ts row = real_score ws ts row.
Proof.
  unfold ensemble_score. change (seq_sum (N:=RE) (tree_scores (N:=RE) ws ts row) = real_score ws ts row).
  rewrite seq_sum_total, tree_scores_real. reflexivity.
Qed.

Theorem C31_real_lemma (e : ensemble RE) ts ws X : encodes e ts ws -> (forall row, In row X -> covers row ts) ->
  basic_scoring e X = Ok (map (real_score ws ts) X).
Proof.
  intros He Hc. rewrite (C31_lemma e ts ws X He Hc). f_equal. apply map_ext. intros row. apply ensemble_score_real.
Qed.

Lemma real_lr (lr : R) (v : R) : (if Reqb lr 1 then v else v * lr) = lr * v.
Proof. destruct (Reqb lr 1) eqn:E; [apply Reqb_true in E; rewrite E; lra|lra]. Qed.
Lemma real_base (b : option R) (v : R) :
  match truthy (N:=RE) b with None => v | Some b' => v + b' end = v + base_of b.
Proof.
  destruct b as [b|]; cbn [truthy base_of]; [|lra].
  change (neqb (n:=RE) b nzero) with (Reqb b 0). destruct (Reqb b 0) eqn:E; [apply Reqb_true in E; rewrite E; lra|lra].
Qed.
Lemma Rtotal_scale c l : Rtotal (map (fun v => c * v) l) = c * Rtotal l.
Proof. induction l as [|x l IH]; cbn [map Rtotal fold_right]; [lra|]. unfold Rtotal in IH. rewrite IH. unfold Rtotal. lra. Qed.

Lemma contribution_ok lr b ws ts row : ts <> [] -> length ws = length ts ->
  contribution lr b ws ts row
    (match truthy (N:=RE) b with None => fun r => r | Some b' => add_first (N:=RE) b' end
       (map (fun v => lr * v) (tree_scores (N:=RE) ws ts row))).
Proof.
  intros Hne Hl. rewrite tree_scores_real.
  destruct ws as [|w ws]; [destruct ts; [congruence|discriminate]|]. destruct ts as [|t ts]; [congruence|].
  assert (Hl' : length ws = length ts) by (cbn in Hl; lia). clear Hl Hne.
  assert (E : (match truthy (N:=RE) b with None => fun r => r | Some b' => add_first (N:=RE) b' end)
                (map (fun v => lr * v) (map (fun p => fst p * snd (exit_leaf (N:=RE) row (snd p))) (combine (w :: ws) (t :: ts))))
            = (lr * (w * snd (exit_leaf (N:=RE) row t)) + base_of b)
              :: map (fun v => lr * v) (map (fun p => fst p * snd (exit_leaf (N:=RE) row (snd p))) (combine ws ts))).
  { cbn [combine map fst snd]. rewrite <- real_base. destruct (truthy (N:=RE) b); reflexivity. }
  refine (eq_ind_r (fun l => contribution lr b (w :: ws) (t :: ts) row l) _ E). clear E. unfold contribution. split; [|split].
  - cbn [length]. rewrite !map_length, combine_length. lia.
  - intros [|k] w' t' Hw Ht; cbn [nth_error] in *.
    + injection Hw as <-. injection Ht as <-. reflexivity.
    + assert (Ec : nth_error (combine ws ts) k = Some (w', t')) by (rewrite L_Dataset.nth_error_combine, Hw, Ht; reflexivity).
      rewrite map_map, nth_error_map. refine (eq_trans (f_equal (option_map _) Ec) _). cbn [option_map fst snd]. f_equal. lra.
  - cbn [Rtotal fold_right]. change (fold_right Rplus 0) with Rtotal. rewrite Rtotal_scale. unfold real_score.
    cbn [combine map fst snd Rtotal fold_right]. change (fold_right Rplus 0) with Rtotal. lra.
Qed.

Section Real.
Variable rowsum : list R -> R.
Hypothesis rowsum_exact : forall l, rowsum l = Rtotal l.
Variable digest : list (list R) -> list R -> list Z -> Z.

Theorem C32_real_lemma (m : model RE) (o : obj (N:=RE)) cache ts ws :
  laid_out (m_ens m) ts ws -> ts <> [] -> nonneg_features ts -> rows_fit (N:=RE) (snd o) ->
  ~ too_wide (ds_nf (snd o)) ts -> m_cache m = [] ->
  let scores := map (fun row => m_lr m * real_score ws ts row + base_of (m_base m)) (ds_X (snd o)) in
  snd (score (N:=RE) rowsum digest m o false cache) = Ok (Basic (N:=RE) (Some scores)) /\
  exists parts,
    snd (score (N:=RE) rowsum digest m o true cache)
      = Ok (Detailed (N:=RE) (Some scores) (Some parts)
              (Some (map (fun row => map (fun t => fst (exit_leaf (N:=RE) row t)) ts) (ds_X (snd o))))) /\
    Forall2 (contribution (m_lr m) (m_base m) ws ts) (ds_X (snd o)) parts.
Proof.
  intros HL Hne Hpos Hrow Hw H0. cbv zeta. unfold score. rewrite H0. cbn [scorer_find].
  destruct (C37_check_lemma _ _ _ (snd o) HL Hne) as [[_ Hw']|[-> _]]; [destruct (Hw Hw')|]. cbn [bind].
  assert (Hc : forall row, In row (ds_X (snd o)) -> covers (N:=RE) row ts).
  { intros row Hr. unfold rows_fit in Hrow. rewrite Forall_forall in Hrow.
    eapply (covers_of_check (m_ens m) ts ws); eauto. }
  pose proof HL as [He _]. pose proof He as (_ & _ & _ & Elen & _).
  unfold scorer_score. cbn [negb andb orb is_some sc_y sc_leaves new_scorer].
  rewrite (C32_lemma _ _ _ _ He Hc), (C31_real_lemma _ _ _ _ He Hc). cbn [bind fst snd].
  rewrite !adjust_parts. cbn [option_map].
  assert (Emul : forall v : R, (if neqb (n:=RE) (m_lr m) none then v else nf32 (n:=RE) (nmul (n:=RE) v (m_lr m))) = m_lr m * v).
  { intros v. exact (real_lr (m_lr m) v). }
  assert (Eadd : forall v : R, match truthy (N:=RE) (m_base m) with None => v | Some b => nf32 (n:=RE) (nadd (n:=RE) v b) end = v + base_of (m_base m)).
  { intros v. exact (real_base (m_base m) v). }
  assert (Ey : forall X, map (fun v : R => match truthy (N:=RE) (m_base m) with
                 | None => if neqb (n:=RE) (m_lr m) none then v else nf32 (n:=RE) (nmul (n:=RE) v (m_lr m))
                 | Some b => nf32 (n:=RE) (nadd (n:=RE) (if neqb (n:=RE) (m_lr m) none then v else nf32 (n:=RE) (nmul (n:=RE) v (m_lr m))) b) end)
               (map (real_score ws ts) X)
             = map (fun row => m_lr m * real_score ws ts row + base_of (m_base m)) X).
  { intros X. rewrite map_map. apply map_ext. intros row. rewrite Emul. apply Eadd. }
  assert (Er : map rowsum (map (tree_scores (N:=RE) ws ts) (ds_X (snd o))) = map (real_score ws ts) (ds_X (snd o))).
  { rewrite map_map. apply map_ext. intros row. rewrite rowsum_exact, tree_scores_real. reflexivity. }
  split.
  - destruct cache; cbn [scorer_store bind snd answer_of sc_y]; do 3 f_equal; apply Ey.
  - exists (map (fun row => (match truthy (N:=RE) (m_base m) with None => fun r => r | Some b' => add_first (N:=RE) b' end)
              (map (fun v => m_lr m * v) (tree_scores (N:=RE) ws ts row))) (ds_X (snd o))).
    split.
    + assert (Ep : map (fun r => match truthy (N:=RE) (m_base m) with
                   | None => map (fun v : R => if neqb (n:=RE) (m_lr m) none then v else nf32 (n:=RE) (nmul (n:=RE) v (m_lr m))) r
                   | Some b => add_first (N:=RE) b (map (fun v : R => if neqb (n:=RE) (m_lr m) none then v else nf32 (n:=RE) (nmul (n:=RE) v (m_lr m))) r) end)
                 (map (tree_scores (N:=RE) ws ts) (ds_X (snd o)))
             = map (fun row => (match truthy (N:=RE) (m_base m) with None => fun r => r | Some b' => add_first (N:=RE) b' end)
                     (map (fun v => m_lr m * v) (tree_scores (N:=RE) ws ts row))) (ds_X (snd o))).
      { rewrite map_map. apply map_ext. intros row. rewrite (map_ext _ _ Emul). destruct (truthy (N:=RE) (m_base m)); reflexivity. }
      destruct cache; cbn [scorer_store bind snd answer_of sc_y sc_partial sc_leaves]; f_equal;
        (f_equal; [f_equal; refine (eq_trans _ (Ey _)); f_equal; exact Er | f_equal; exact Ep]).
    + clear - Hne Elen. induction (ds_X (snd o)) as [|row X IH]; cbn [map]; constructor; [|exact IH].
      apply contribution_ok; assumption.
Qed.

Theorem C34_real_lemma (m0 : model RE) h (o : obj (N:=RE)) det cache : m_cache m0 = [] ->
  (forall k k', In k (o :: scored h) -> In k' (o :: scored h) -> scores_alike (N:=RE) digest k k') ->
  (forall k, In k (o :: scored h) -> scorable (m_ens m0) k) ->
  snd (score (N:=RE) rowsum digest (score_after (N:=RE) rowsum digest m0 h) o det cache)
    = snd (score (N:=RE) rowsum digest m0 o det false).
Proof.
  apply (C34_sum_lemma (N:=RE) rowsum digest). intros l. rewrite seq_sum_total. apply rowsum_exact.
Qed.
End Real.

Section Histories.
Context {N : num} (neqb_spec : forall a b : N, neqb a b = true <-> a = b).
Variable digest : list (list N) -> list N -> list Z -> Z.

Lemma alike_ok os : distinguishable digest os -> (forall k, In k os -> rect (snd k)) ->
  forall k k', In k os -> In k' os -> scores_alike digest k k'.
Proof.
  intros Hd Hr k k' Hk Hk'. destruct (Hd k k' Hk Hk') as [Hid Hsh].
  destruct (Nat.eq_dec (fst k) (fst k')) as [E|E]; [left; auto|right]. split; [exact E|]. intros Hh.
  destruct (L_Dataset3.C09_lemma neqb neqb_spec (snd k) (snd k') (Hr k Hk) (Hr k' Hk') (Hsh Hh)) as (b & Eb & Hb).
  exists b. split; [exact Eb|]. intros ->. apply Hb. reflexivity.
Qed.

Lemma scorable_ok (e : ensemble N) ts ws (o : obj) : laid_out e ts ws -> ts <> [] -> nonneg_features ts -> rect (snd o) ->
  scorable e o.
Proof.
  intros HL Hne Hpos [Hrow _] Hchk.
  destruct (C37_check_lemma _ _ _ (snd o) HL Hne) as [[E _]|[_ Hw]]; [congruence|].
  eexists. pose proof HL as [He _]. apply (C32_lemma _ _ _ _ He).
  intros row Hr. rewrite Forall_forall in Hrow. eapply (covers_of_check e ts ws); eauto.
Qed.
End Histories.

Theorem C34_any_lemma {N : num} (rowsum : list N -> N) digest (m0 : model N) ts ws h (o : obj) det cache :
  (forall a b : N, neqb a b = true <-> a = b) ->
  laid_out (m_ens m0) ts ws -> ts <> [] -> nonneg_features ts -> m_cache m0 = [] ->
  (forall k, In k (o :: scored h) -> rect (snd k)) -> distinguishable digest (o :: scored h) ->
  snd (score rowsum digest (score_after rowsum digest m0 h) o det cache)
    = snd (score rowsum digest m0 o det false)
  \/ (det = false /\ exists y p l,
        snd (score rowsum digest m0 o true false) = Ok (Detailed (Some y) (Some p) (Some l)) /\
        snd (score rowsum digest (score_after rowsum digest m0 h) o det cache) = Ok (Basic (Some y))).
Proof.
  intros Hq HL Hne Hpos H0 Hr Hd. apply C34_generic_lemma; [exact H0| |].
  - apply alike_ok; assumption.
  - intros k Hk. eapply scorable_ok; eauto.
Qed.

Theorem C34_exact_lemma (rowsum : list R -> R) digest (m0 : model RE) ts ws h (o : obj (N:=RE)) det cache :
  (forall l, rowsum l = Rtotal l) ->
  laid_out (m_ens m0) ts ws -> ts <> [] -> nonneg_features ts -> m_cache m0 = [] ->
  (forall k, In k (o :: scored h) -> rect (snd k)) -> distinguishable (N:=RE) digest (o :: scored h) ->
  snd (score (N:=RE) rowsum digest (score_after (N:=RE) rowsum digest m0 h) o det cache)
    = snd (score (N:=RE) rowsum digest m0 o det false).
Proof.
  intros Hs HL Hne Hpos H0 Hr Hd. apply C34_real_lemma; [exact Hs|exact H0| |].
  - apply (@alike_ok RE); try assumption. intros a b. apply Reqb_true.
  - intros k Hk. eapply (@scorable_ok RE); eauto.
Qed.

Theorem C35_scores_lemma {N : num} (m : model N) ts ws n X : laid_out (m_ens m) ts ws -> (0 <= n)%Z ->
  (forall row, In row X -> covers row ts) ->
  exists m', copy m (Some n) = Ok m' /\
    basic_scoring (m_ens m') X = Ok (map (ensemble_score (firstn (Z.to_nat n) ws) (firstn (Z.to_nat n) ts)) X) /\
    detailed_scoring (m_ens m') X
      = Ok (map (fun row => map (fun t => fst (exit_leaf row t)) (firstn (Z.to_nat n) ts)) X,
            map (fun row => firstn (Z.to_nat n) (tree_scores ws ts row)) X).
Proof.
  intros HL Hn Hc. destruct (C35_lemma m ts ws n HL Hn) as (m' & E & _ & [He _] & _).
  exists m'. split; [exact E|].
  assert (Hc' : forall row, In row X -> covers row (firstn (Z.to_nat n) ts)).
  { intros row Hr. specialize (Hc row Hr). unfold covers in *. rewrite Forall_forall in *. intros t Ht. apply Hc.
    eapply In_firstn; eauto. }
  split; [apply C31_lemma; assumption|]. rewrite (C32_lemma _ _ _ _ He Hc'). do 2 f_equal. apply map_ext. intros row.
  unfold tree_scores. rewrite firstn_map. f_equal. clear. generalize (Z.to_nat n) as k. revert ts.
  induction ws as [|w ws IH]; intros [|t ts] [|k]; cbn [firstn combine]; try reflexivity. f_equal. apply IH.
Qed.
