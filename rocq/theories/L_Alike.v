(** Caching (C34) when == on data sets only implies the same scores, not the same features. *)
From Coq Require Import List ZArith Lia Bool.
From Verif Require Import Base Lists Num M_Dataset M_NDCG M_Ensemble S_Dataset S_Ensemble L_Ensemble L_Ensemble2 L_Ensemble3.
Import ListNotations.
Local Open Scope Z_scope.

Section Generic.
Context {N : num}.
Implicit Types e : ensemble N.
Variable rowsum : list N -> N.
Variable digest : list (list N) -> list N -> list Z -> Z.

(** A new scorer gives both the same. *)
Definition same_scores e (k o : obj (N:=N)) : Prop :=
  forall det, scorer_score rowsum e (ds_X (snd k)) new_scorer det = scorer_score rowsum e (ds_X (snd o)) new_scorer det.
Definition alike e (k o : obj (N:=N)) : Prop :=
  k = o \/
  (fst k <> fst o /\
   (ds_hash digest (snd k) = ds_hash digest (snd o) ->
    exists b, ds_eq neqb (snd k) (snd o) = Ok b /\ (b = true -> same_scores e k o))).

Lemma key_alike e k o : alike e k o ->
  exists b, key_eq digest k o = Ok b /\ (b = true -> same_scores e k o).
Proof.
  intros [->|[Hid H]]; unfold key_eq.
  - rewrite Z.eqb_refl. cbn [negb]. rewrite Nat.eqb_refl. exists true. split; [reflexivity|]. intros _ d. reflexivity.
  - destruct (Z.eqb_spec (ds_hash digest (snd k)) (ds_hash digest (snd o))) as [E|E]; cbn [negb].
    + destruct (H E) as (b & E1 & E2). replace (Nat.eqb (fst k) (fst o)) with false by (symmetry; apply Nat.eqb_neq; exact Hid).
      exists b. auto.
    + exists false. split; [reflexivity|discriminate].
Qed.

Lemma find_alike e (c : list (obj * scorer N)) o : (forall k s, In (k, s) c -> alike e k o) ->
  exists r, scorer_find digest c o = Ok r /\
    (forall s, r = Some s -> exists k, In (k, s) c /\ same_scores e k o).
Proof.
  induction c as [|[k s] c IH]; intros H; cbn [scorer_find].
  - exists None. split; [reflexivity|discriminate].
  - destruct (key_alike e k o) as (b & E & HX); [apply (H k s); left; reflexivity|]. rewrite E. cbn [bind]. destruct b.
    + exists (Some s). split; [reflexivity|]. intros s' Es. injection Es as <-. exists k. split; [left; reflexivity|auto].
    + destruct IH as (r & E2 & H2); [intros k' s' Hin; apply (H k' s'); right; exact Hin|].
      exists r. split; [exact E2|]. intros s' Es. destruct (H2 s' Es) as (k' & Hin & HX'). exists k'. split; [right; exact Hin|exact HX'].
Qed.

Lemma store_inv e (c : list (obj * scorer N)) o s c' : scorer_store digest c o s = Ok c' ->
  (forall k s, In (k, s) c -> alike e k o) ->
  forall k s', In (k, s') c' -> (In (k, s') c) \/ (s' = s /\ ((k = o) \/ (exists s0, In (k, s0) c) /\ same_scores e k o)).
Proof.
  revert c'. induction c as [|[k0 s0] c IH]; intros c' E H k s' Hin; cbn [scorer_store] in E.
  - injection E as <-. destruct Hin as [Hin|[]]. injection Hin as <- <-. right. auto.
  - destruct (key_alike e k0 o) as (b & Eb & HX); [apply (H k0 s0); left; reflexivity|]. rewrite Eb in E. cbn [bind] in E. destruct b.
    + injection E as <-. destruct Hin as [Hin|Hin].
      * injection Hin as <- <-. right. split; [reflexivity|]. right. split; [exists s0; left; reflexivity|auto].
      * left. right. exact Hin.
    + destruct (scorer_store digest c o s) as [c1|er] eqn:E1; [|discriminate]. cbn [bind] in E. injection E as <-.
      destruct Hin as [Hin|Hin].
      * injection Hin as <- <-. left. left. reflexivity.
      * destruct (IH c1 eq_refl) with (k := k) (s' := s') as [H1|(H1 & H2)]; auto.
        { intros k1 s1 Hk1. apply (H k1 s1). right. exact Hk1. }
        { left. right. exact H1. }
        right. split; [exact H1|]. destruct H2 as [H2|((s1 & H2) & H3)]; [left; exact H2|right].
        split; [exists s1; right; exact H2|exact H3].
Qed.

Lemma store_total e (c : list (obj * scorer N)) o s : (forall k s, In (k, s) c -> alike e k o) ->
  exists c', scorer_store digest c o s = Ok c'.
Proof.
  induction c as [|[k s'] c IH]; intros Hc; cbn [scorer_store]; [eauto|].
  destruct (key_alike e k o) as (b & Eb & _); [apply (Hc k s'); left; reflexivity|]. rewrite Eb. cbn [bind].
  destruct b; [eauto|]. destruct IH as (c' & Ec'); [intros k1 s1 Hk1; apply (Hc k1 s1); right; exact Hk1|].
  rewrite Ec'. cbn [bind]. eauto.
Qed.




Lemma score_inv (m0 : model N) seen m o det cache : inv rowsum m0 seen m ->
  (forall k, In k seen -> alike (m_ens m0) k o) -> scorable (m_ens m0) o ->
  inv rowsum m0 (o :: seen) (fst (score rowsum digest m o det cache)).
Proof.
  intros (H1 & H2 & H3 & H4) Ha Hsc.
  assert (Hw : inv rowsum m0 (o :: seen) m).
  { repeat split; auto. - right. eapply H4; eauto. - eapply H4; eauto. }
  unfold score. destruct (check_features (m_ens m) (snd o)) as [[]|er] eqn:Echk; [|exact Hw]. cbn [bind].
  destruct (scorer_find digest (m_cache m) o) as [found|er]; [|exact Hw].
  destruct (match found with Some _ => _ | None => _ end) as [s|]; [exact Hw|]. cbv zeta.
  rewrite H1 in Echk. destruct (scorable_score rowsum _ o det Hsc Echk) as (s & y & Es). rewrite <- H1 in Es. rewrite Es.
  destruct cache; [|exact Hw].
  assert (Hal : forall k s, In (k, s) (m_cache m) -> alike (m_ens m0) k o) by (intros k s' Hk; apply Ha; eapply H4; eauto).
  destruct (store_total (m_ens m0) (m_cache m) o new_scorer Hal) as [c0 Ec0]. rewrite Ec0. cbn [bind].
  destruct (store_total (m_ens m0) (m_cache m) o (adjust m det s) Hal) as [c Ec]. rewrite Ec. cbn [bind].
  assert (Hs : fresh rowsum m0 (ds_X (snd o)) det (adjust m det s)).
  { exists s, y. rewrite <- H1. split; [exact Es|]. apply adjust_same; auto. }
  cbn [fst]. split; [exact H1|]. split; [exact H2|]. split; [exact H3|]. cbn [m_cache].
  intros k1 s1 Hk1.
  destruct (store_inv (m_ens m0) _ _ _ _ Ec) with (k := k1) (s' := s1) as [H'|(-> & [->|((s2 & H') & HX)])]; auto.
  - split; [right; eapply H4; eauto|eapply H4; eauto].
  - split; [left; reflexivity|exists det; exact Hs].
  - split; [right; eapply H4; eauto|]. exists det. destruct Hs as (s3 & y3 & E3 & E4). exists s3, y3. split; [rewrite (HX det); exact E3|exact E4].
Qed.

Lemma after_inv (m0 : model N) : m_cache m0 = [] -> forall h,
  (forall k k', In k (scored h) -> In k' (scored h) -> alike (m_ens m0) k k') ->
  (forall k, In k (scored h) -> scorable (m_ens m0) k) ->
  inv rowsum m0 (scored h) (score_after rowsum digest m0 h).
Proof.
  intros H0 h. induction h as [|c h IH] using rev_ind; intros Ha Hsc.
  - split; [reflexivity|]. split; [reflexivity|]. split; [reflexivity|].
    cbn [score_after fold_left]. rewrite H0. intros k s [].
  - unfold score_after. rewrite fold_left_app. cbn [fold_left].
    unfold scored in *. rewrite flat_map_app in *. cbn [flat_map] in *.
    assert (IH' : inv rowsum m0 (scored h) (score_after rowsum digest m0 h)).
    { apply IH; [intros k k' Hk Hk'; apply Ha|intros k Hk; apply Hsc]; apply in_or_app; left; assumption. }
    unfold scored, score_after in IH'. destruct c as [o det cache|]; cbn [score_step].
    + pose proof (score_inv m0 _ _ o det cache IH') as H.
      destruct H as (H1 & H2 & H3 & H4).
      { intros k Hk. apply Ha; apply in_or_app; [left; exact Hk|right; left; reflexivity]. }
      { apply Hsc. apply in_or_app. right. left. reflexivity. }
      split; [exact H1|]. split; [exact H2|]. split; [exact H3|]. intros k s Hk.
      destruct (H4 k s Hk) as [Hin Hf]. split; [|exact Hf].
      apply in_or_app. destruct Hin as [<-|Hin]; [right; left; reflexivity|left; exact Hin].
    + destruct IH' as (H1 & H2 & H3 & H4). split; [exact H1|]. split; [exact H2|]. split; [exact H3|]. intros k s [].
Qed.


Theorem C34_weak_lemma (m0 : model N) h o det cache : m_cache m0 = [] ->
  (forall k k', In k (o :: scored h) -> In k' (o :: scored h) -> alike (m_ens m0) k k') ->
  (forall k, In k (o :: scored h) -> scorable (m_ens m0) k) ->
  snd (score rowsum digest (score_after rowsum digest m0 h) o det cache)
    = snd (score rowsum digest m0 o det false)
  \/ (det = false /\ exists y p l,
        snd (score rowsum digest m0 o true false) = Ok (Detailed (Some y) (Some p) (Some l)) /\
        snd (score rowsum digest (score_after rowsum digest m0 h) o det cache) = Ok (Basic (Some y))).
Proof.
  intros H0 Ha Hsc.
  assert (Hi : inv rowsum m0 (scored h) (score_after rowsum digest m0 h)).
  { apply after_inv; auto; [intros k k' Hk Hk'; apply Ha|intros k Hk; apply Hsc]; right; assumption. }
  destruct Hi as (H1 & H2 & H3 & H4). set (m := score_after rowsum digest m0 h) in *.
  unfold score. rewrite H0, H1. cbn [scorer_find].
  destruct (check_features (m_ens m0) (snd o)) as [[]|er] eqn:Echk; [|left; reflexivity]. cbn [bind].
  assert (Hal : forall k s, In (k, s) (m_cache m) -> alike (m_ens m0) k o).
  { intros k s Hk. apply Ha; [right; eapply H4; eauto|left; reflexivity]. }
  destruct (find_alike (m_ens m0) (m_cache m) o Hal) as (r & Er & Hr).
  rewrite Er. cbv zeta. cbn [bind].
  assert (Hfresh : snd (match (if cache then do c <- scorer_store digest (m_cache m) o new_scorer; Ok (mkModel (m_ens m0) (m_lr m) (m_base m) c) else Ok m) with
      | Err e => (m, Err e)
      | Ok m1 => match scorer_score rowsum (m_ens m0) (ds_X (snd o)) new_scorer det with
          | Err e => (m1, Err e)
          | Ok (s, _) => match (if cache then do c <- scorer_store digest (m_cache m) o (adjust m det s); Ok (mkModel (m_ens m0) (m_lr m) (m_base m) c) else Ok m) with
              | Err e => (m1, Err e)
              | Ok m2 => (m2, Ok (answer_of det (adjust m det s))) end end end)
    = snd (match scorer_score rowsum (m_ens m0) (ds_X (snd o)) new_scorer det with
      | Err e => (m0, Err e)
      | Ok (s, _) => (m0, Ok (answer_of det (adjust m0 det s))) end)).
  { destruct (scorable_score rowsum _ o det (Hsc o (or_introl eq_refl)) Echk) as (s & y & Es). rewrite Es.
    rewrite (adjust_same m m0 det s H2 H3). destruct cache; [|reflexivity].
    destruct (store_total (m_ens m0) (m_cache m) o new_scorer Hal) as [c0 Ec0]. rewrite Ec0. cbn [bind].
    destruct (store_total (m_ens m0) (m_cache m) o (adjust m0 det s) Hal) as [c Ec]. rewrite Ec. reflexivity. }
  destruct r as [s|].
  - destruct (Hr s eq_refl) as (k & Hk & HX). destruct (H4 k s Hk) as (_ & dt & s0 & y0 & Es & ->).
    rewrite HX in Es.
    destruct (det && negb (is_some (sc_partial (adjust m0 dt s0)))) eqn:Ed.
    + left. exact Hfresh.
    + destruct det.
      * cbn [andb] in Ed. apply negb_false_iff in Ed. destruct dt.
        -- left. rewrite Es. cbn [snd]. reflexivity.
        -- exfalso. unfold scorer_score in Es. cbn [negb andb orb is_some sc_y new_scorer] in Es.
           destruct (basic_scoring (m_ens m0) (ds_X (snd o))) as [yb|er]; [|discriminate]. cbn [bind] in Es.
           injection Es as <- _. unfold adjust in Ed. destruct (neqb (m_lr m0) none), (truthy (m_base m0)); discriminate.
      * destruct dt.
        -- right. split; [reflexivity|].
           unfold scorer_score in Es. cbn [negb andb orb is_some sc_y sc_leaves new_scorer] in Es.
           destruct (detailed_scoring (m_ens m0) (ds_X (snd o))) as [[l p]|er] eqn:Edet; [|discriminate].
           cbn [bind fst snd] in Es. injection Es as <- _.
           unfold scorer_score. cbn [negb andb orb is_some sc_y sc_leaves new_scorer]. rewrite Edet. cbn [bind fst snd].
           unfold answer_of, adjust. destruct (neqb (m_lr m0) none), (truthy (m_base m0));
             cbn [sc_y sc_partial sc_leaves option_map]; eauto 10.
        -- left. rewrite Es. cbn [snd]. reflexivity.
  - left. exact Hfresh.
Qed.
End Generic.
