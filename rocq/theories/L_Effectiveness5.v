(** Proofs about query_wise_performance (C54), query_class_performance (C55) and
    tree_wise_average_contribution. *)
From Coq Require Import List ZArith Bool Lia Arith Reals Lra Sorted Permutation.
From Verif Require Import Base Num Lists M_Dataset M_NDCG S_Dataset M_Ensemble S_Ensemble L_Ensemble L_Ensemble2 L_Ensemble3 L_Loaders L_Topology3 L_Feature4 L_Feature5
  M_Effectiveness S_Effectiveness L_Effectiveness L_Effectiveness2 L_Effectiveness3 L_Effectiveness4.
Import ListNotations.
Local Open Scope Z_scope.

Lemma mapM_from {A B} (f : A -> res B) l bs b : mapM f l = Ok bs -> In b bs -> exists a, In a l /\ f a = Ok b.
Proof.
  intros H Hb. apply mapM_ok_iff in H. induction H as [|x y l bs Hxy H IH]; [destruct Hb|]. destruct Hb as [<-|Hb].
  - exists x. split; [left; reflexivity|exact Hxy].
  - destruct (IH Hb) as [a [Ha E]]. exists a. split; [right; exact Ha|exact E].
Qed.
Lemma mapM_to {A B} (f : A -> res B) l bs a : mapM f l = Ok bs -> In a l -> exists b, In b bs /\ f a = Ok b.
Proof.
  intros H Ha. destruct (In_nth_error _ _ Ha) as [i Hi]. destruct (mapM_nth _ _ _ _ _ H Hi) as [b [Hb E]]. exists b. split; [exact (nth_error_In _ _ Hb)|exact E].
Qed.
Lemma least_ext P Q x : (forall v, P v <-> Q v) -> least P x -> least Q x.
Proof. intros H [H1 H2]. split; [apply H; exact H1|]. intros v Hv. apply H2, H. exact Hv. Qed.
Lemma greatest_ext P Q x : (forall v, P v <-> Q v) -> greatest P x -> greatest Q x.
Proof. intros H [H1 H2]. split; [apply H; exact H1|]. intros v Hv. apply H2, H. exact Hv. Qed.
Lemma bound_ext given (P Q : R -> Prop) x : (forall v, P v -> Q v) -> bound_of given P x -> bound_of given Q x.
Proof. intros H. destruct given; cbn [bound_of]; auto. Qed.

Section Real.
Variable (rowsum : list RE -> RE) (digest : list (list RE) -> list RE -> list Z -> Z).
Hypothesis rowsum_exact : forall l, rowsum l = Rtotal l.
Variable (st : list (model RE)) (sh : list shape) (ds : list (obj (N:=RE))).
Hypothesis Hr : ready digest st sh ds.

Definition scores_row (metrics : list (evaluator (N:=RE))) (i : nat) (o : obj (N:=RE)) (a : answer (N:=RE)) : res (list (list RE)) :=
  do y <- y_pred a; mapM (fun f : evaluator => do v <- f (snd o) y; Ok (snd v)) metrics.
Lemma query_scores_agrees ms metrics cache :
  match mapM (fun o => mapM (fun i => do a <- alone (N:=RE) rowsum digest st i o false; scores_row metrics i o a) ms) ds with
  | Ok bs => exists st', query_scores (N:=RE) rowsum digest st ds ms metrics cache = Ok (st', bs) /\ after rowsum digest st ds st'
  | Err e => query_scores (N:=RE) rowsum digest st ds ms metrics cache = Err e
  end.
Proof.
  unfold query_scores. pose proof (transparent_cached rowsum digest rowsum_exact st sh ds cache Hr) as T.
  apply (per_dataset (N:=RE) rowsum digest st ds cache _ T false (scores_row metrics)
           (fun st o i => do r <- score_in (N:=RE) rowsum digest st i o false cache;
                          do y <- y_pred (snd r);
                          do row <- mapM (fun f : evaluator => do v <- f (snd o) y; Ok (snd v)) metrics; Ok (fst r, row)) ms).
  - intros st1 o i _ _. unfold scores_row. destruct (score_in rowsum digest st1 i o false cache) as [r|]; cbn [bind]; [|reflexivity].
    destruct (y_pred (snd r)); cbn [bind]; reflexivity.
  - destruct T as [H _]. exact H.
  - intros x Hx. exact Hx.
Qed.
Lemma scores_row_ok metrics i o us : In o ds -> (do a <- alone (N:=RE) rowsum digest st i o false; scores_row metrics i o a) = Ok us ->
  exists m s, nth_error st i = Some m /\ nth_error sh i = Some s /\ mapM (fun f : evaluator => do v <- f (snd o) (scores_of m s (snd o)); Ok (snd v)) metrics = Ok us.
Proof.
  intros Ho E. destruct (nth_error st i) as [m|] eqn:Hm; [|unfold alone in E; rewrite Hm in E; discriminate].
  destruct Hr as [H1 _]. destruct (Forall2_nth _ _ _ _ _ H1 Hm) as [s [Hs _]]. exists m, s. split; [reflexivity|]. split; [exact Hs|].
  destruct (alone_real rowsum digest rowsum_exact st sh ds Hr i o m s Ho Hm Hs) as [[_ E1]|[_ [E1 _]]]; rewrite E1 in E; [discriminate|exact E].
Qed.

(** What a successful run of the first loop gives. *)
Lemma query_scores_ok ms metrics cache st' qs : query_scores (N:=RE) rowsum digest st ds ms metrics cache = Ok (st', qs) ->
  length qs = length ds /\
  (forall a b c o i f, nth_error ds a = Some o -> nth_error ms b = Some i -> nth_error metrics c = Some f ->
     exists v pd pm, evaluated st sh o i f v /\ nth_error qs a = Some pd /\ nth_error pd b = Some pm /\ nth_error pm c = Some (snd v)) /\
  (forall u, In u (concat (concat qs)) <-> exists o i f v, In o ds /\ In i ms /\ In f metrics /\ evaluated st sh o i f v /\ u = snd v).
Proof.
  intros E. pose proof (query_scores_agrees ms metrics cache) as H.
  match type of H with match ?x with _ => _ end => destruct x as [bs|e] eqn:Eb end; [|rewrite E in H; discriminate].
  destruct H as [st2 [H _]]. rewrite E in H. injection H as <- <-. split; [apply (mapM_length _ _ Eb)|]. split.
  - intros a b c o i f Ha Hb Hc. destruct (mapM_nth _ _ _ _ _ Eb Ha) as [pd [Hpd Epd]]. destruct (mapM_nth _ _ _ _ _ Epd Hb) as [pm [Hpm Epm]].
    destruct (scores_row_ok metrics i o pm (nth_error_In _ _ Ha) Epm) as [m [s [Hm [Hs Erow]]]]. destruct (mapM_nth _ _ _ _ _ Erow Hc) as [u [Hu Eu]].
    apply bind_ok in Eu. destruct Eu as [v [Ev Eu]]. injection Eu as <-. exists v, pd, pm. split; [exists m, s; auto|auto].
  - intros u. split.
    + intros Hu. apply in_concat in Hu. destruct Hu as [pm [Hpm Hu]]. apply in_concat in Hpm. destruct Hpm as [pd [Hpd Hpm]].
      destruct (mapM_from _ _ _ _ Eb Hpd) as [o [Ho Epd]]. destruct (mapM_from _ _ _ _ Epd Hpm) as [i [Hi Epm]].
      destruct (scores_row_ok metrics i o pm Ho Epm) as [m [s [Hm [Hs Erow]]]]. destruct (mapM_from _ _ _ _ Erow Hu) as [f [Hf Eu]].
      apply bind_ok in Eu. destruct Eu as [v [Ev Eu]]. injection Eu as <-. exists o, i, f, v. split; [exact Ho|]. split; [exact Hi|]. split; [exact Hf|]. split; [exists m, s; auto|reflexivity].
    + intros [o [i [f [v [Ho [Hi [Hf [[m [s [Hm [Hs Ev]]]] ->]]]]]]]]. destruct (mapM_to _ _ _ _ Eb Ho) as [pd [Hpd Epd]]. destruct (mapM_to _ _ _ _ Epd Hi) as [pm [Hpm Epm]].
      destruct (scores_row_ok metrics i o pm Ho Epm) as [m' [s' [Hm' [Hs' Erow]]]]. rewrite Hm in Hm'. injection Hm' as <-. rewrite Hs in Hs'. injection Hs' as <-.
      destruct (mapM_to _ _ _ _ Erow Hf) as [u [Hu Eu]]. rewrite Ev in Eu. cbn [bind] in Eu. injection Eu as <-.
      apply in_concat. exists pm. split; [|exact Hu]. apply in_concat. exists pd. split; [exact Hpd|exact Hpm].
Qed.

Lemma fold_zmax l x : In (fold_left Z.max l x) (x :: l) /\ forall v, In v (x :: l) -> v <= fold_left Z.max l x.
Proof.
  revert x. induction l as [|y l IH]; intros x; cbn [fold_left]; [split; [left; reflexivity|intros v [->|[]]; lia]|]. destruct (IH (Z.max x y)) as [I1 I2]. split.
  - destruct I1 as [I1|I1]; [|right; right; exact I1]. destruct (Z.max_spec x y) as [[_ E]|[_ E]]; rewrite E in I1; [right; left; congruence|left; congruence].
  - intros v [<-|[<-|Hv]]; [pose proof (I2 (Z.max x y) (or_introl eq_refl)); lia|pose proof (I2 (Z.max x y) (or_introl eq_refl)); lia|apply I2; right; exact Hv].
Qed.

Theorem C54_queries_lemma ms metrics bins start stop cache st' coords data :
  query_wise_performance (N:=RE) rowsum digest st ds ms metrics bins start stop cache = Ok (st', (coords, data)) ->
  exists lo hi b,
    bound_of start (least (query_value st sh ds ms metrics)) lo /\ bound_of stop (greatest (query_value st sh ds ms metrics)) hi /\ bins_of bins ds b /\
    ((0 < b)%nat -> (lo <= hi)%R) /\
    length data = length ds /\
    (forall a j c o i f, nth_error ds a = Some o -> nth_error ms j = Some i -> nth_error metrics c = Some f ->
       exists v curve, evaluated st sh o i f v /\ snd v <> [] /\ at3 data a j c = Some curve /\ is_curve lo hi b (snd v) curve /\
         grows_in_unit curve /\ (start = None -> stop = None -> (0 < b)%nat -> nth_error curve (b - 1) = Some (Some 1%R))) /\
    (forall q, (q < b)%nat -> nth_error coords q = Some (lo + INR q * (hi - lo) / INR b + 1 / INR b)%R).
Proof.
  unfold query_wise_performance. intros E. apply bind_ok in E. destruct E as [[st1 qs] [Eq E]]. cbn [fst snd] in E. apply bind_ok in E. destruct E as [mins [Emin E]].
  apply bind_ok in E. destruct E as [z [Ez E]]. apply bind_ok in E. destruct E as [edges [Ee E]]. apply bind_ok in E. destruct E as [d [Ed E]]. apply bind_ok in E. destruct E as [cs [Ec E]].
  injection E as <- <- <-. destruct (query_scores_ok ms metrics cache st1 qs Eq) as [L1 [Q1 Q2]].
  destruct (edges_of_real _ _ _ _ _ Ee) as [Hz [lo [hi [Hlo [Hhi Hedges]]]]]. subst edges.
  assert (Hall : forall x, In x (concat (concat (concat qs))) <-> query_value st sh ds ms metrics x).
  { intros x. rewrite in_concat. split.
    - intros [u [Hu Hx]]. apply Q2 in Hu. destruct Hu as [o [i [f [v [Ho [Hi [Hf [Hev ->]]]]]]]]. exists o, i, f, v. auto.
    - intros [o [i [f [v [Ho [Hi [Hf [Hev Hx]]]]]]]]. exists (snd v). split; [|exact Hx]. apply Q2. exists o, i, f, v. auto. }
  assert (Hlo' : bound_of start (least (query_value st sh ds ms metrics)) lo) by (revert Hlo; apply bound_ext; intros v; apply least_ext; exact Hall).
  assert (Hhi' : bound_of stop (greatest (query_value st sh ds ms metrics)) hi) by (revert Hhi; apply bound_ext; intros v; apply greatest_ext; exact Hall).
  assert (Hne : forall u, In u (concat (concat qs)) -> u <> []).
  { intros u Hu ->. destruct (mapM_to _ _ _ _ Emin Hu) as [x [_ Ex]]. discriminate. }
  set (b := Z.to_nat z) in *.
  assert (Hbins : bins_of bins ds b).
  { destruct bins as [z'|]; cbn [bins_of].
    - injection Ez as ->. unfold b. lia.
    - destruct (map (fun o => Z.of_nat (n_queries (snd o))) ds) as [|x xs] eqn:Em; [discriminate|]. injection Ez as <-. destruct (fold_zmax xs x) as [F1 F2]. rewrite <- Em in F1, F2. unfold b. split.
      + apply in_map_iff in F1. destruct F1 as [o [Fo Ho]]. exists o. split; [exact Ho|]. rewrite <- Fo. lia.
      + intros o Ho. specialize (F2 (Z.of_nat (n_queries (snd o)))). cbn beta in F2. assert (Z.of_nat (n_queries (snd o)) <= fold_left Z.max xs x) by (apply F2; apply in_map_iff; exists o; auto). lia. }
  assert (Hle : (0 < b)%nat -> (lo <= hi)%R).
  { intros Hb. destruct (Rle_or_lt lo hi) as [G|G]; [exact G|exfalso]. unfold edges_of in Ee. apply bind_ok in Ee. destruct Ee as [x0 [Ex0 _]].
    destruct (nmin_real _ _ Ex0) as [Hx0 _]. apply in_concat in Hx0. destruct Hx0 as [u [Hu _]]. apply in_concat in Hu. destruct Hu as [pm [Hpm Hu]]. apply in_concat in Hpm. destruct Hpm as [pd [Hpd Hpm]].
    destruct (mapM_to _ _ _ _ Ed Hpd) as [c1 [_ E1]]. destruct (mapM_to _ _ _ _ E1 Hpm) as [c2 [_ E2]]. destruct (mapM_to _ _ _ _ E2 Hu) as [c3 [_ E3]].
    pose proof (cumulative_reversed u lo hi b Hb G) as E4. unfold b in E4. pose proof (eq_trans (eq_sym E3) E4) as E5. discriminate. }
  exists lo, hi, b. split; [exact Hlo'|]. split; [exact Hhi'|]. split; [exact Hbins|]. split; [exact Hle|]. split; [rewrite (mapM_length _ _ Ed); exact L1|]. split.
  - intros a j c o i f Ha Hj Hc. destruct (Q1 a j c o i f Ha Hj Hc) as [v [pd [pm [Hev [Hpd [Hpm Hu]]]]]].
    destruct (mapM_nth _ _ _ _ _ Ed Hpd) as [c1 [Hc1 E1]]. destruct (mapM_nth _ _ _ _ _ E1 Hpm) as [c2 [Hc2 E2]]. destruct (mapM_nth _ _ _ _ _ E2 Hu) as [curve [Hc3 E3]].
    assert (Hv : snd v <> []). { apply Hne. apply Q2. exists o, i, f, v. split; [exact (nth_error_In _ _ Ha)|]. split; [exact (nth_error_In _ _ Hj)|]. split; [exact (nth_error_In _ _ Hc)|]. auto. }
    assert (Hcurve : is_curve lo hi b (snd v) curve).
    { destruct (Nat.eq_dec b 0) as [Eb|Eb].
      - rewrite Eb in *. rewrite cumulative_0 in E3. injection E3 as <-. split; [reflexivity|]. intros q Hq. lia.
      - destruct (cumulative_real (snd v) lo hi b ltac:(lia) (Hle ltac:(lia))) as [c' [Ec' Hc']]. pose proof (eq_trans (eq_sym E3) Ec') as E5. injection E5 as ->. exact Hc'. }
    exists v, curve. split; [exact Hev|]. split; [exact Hv|]. split; [exact (at3_ok _ _ _ _ _ _ _ Hc1 Hc2 Hc3)|]. split; [exact Hcurve|]. split.
    + destruct (Nat.eq_dec b 0) as [Eb|Eb].
      * destruct Hcurve as [HL _]. rewrite Eb in HL. destruct curve; [|discriminate]. split; [intros [|q] w Hw; discriminate|intros [|q] q2 w w2 _ Hw; discriminate].
      * apply (curve_grows lo hi b (snd v)); [apply Hle; lia|exact Hcurve].
    + intros -> -> Hb. apply (curve_ends lo hi b (snd v) curve Hb Hv Hcurve). intros x Hx. cbn [bound_of] in Hlo', Hhi'.
      assert (Hq : query_value st sh ds ms metrics x). { exists o, i, f, v. split; [exact (nth_error_In _ _ Ha)|]. split; [exact (nth_error_In _ _ Hj)|]. split; [exact (nth_error_In _ _ Hc)|]. auto. }
      split; [apply Hlo'; exact Hq|apply Hhi'; exact Hq].
  - intros q Hq. destruct (coordinates_real lo hi z _ cs Ec ltac:(unfold b in Hq; lia)) as [_ C]. apply C. exact Hq.
Qed.

(** The values below [lo] do not matter when there are none. *)
Lemma inside_all lo hi b q u : (forall v, In v u -> (lo <= v)%R) ->
  fraction (inside lo hi b q) u = fraction (fun v => if (S q =? b)%nat then Rleb v hi else Rltb v (upper_edge lo hi b q)) u.
Proof.
  intros H. unfold fraction. do 2 f_equal. f_equal. apply filter_ext_in. intros v Hv. unfold inside. assert (E : Rleb lo v = true) by (apply Rleb_true, H; exact Hv). rewrite E. reflexivity.
Qed.
End Real.
