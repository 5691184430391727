(** Proofs about model_performance (C57). *)
From Coq Require Import List ZArith Bool Lia Arith Reals Lra.
From Verif Require Import Base Num Lists M_Dataset M_NDCG S_Dataset M_Ensemble S_Ensemble L_Ensemble L_Ensemble2 L_Ensemble3 M_Effectiveness S_Effectiveness L_Effectiveness.
Import ListNotations.
Local Open Scope Z_scope.

Section Any.
Context {N : Num.num}.
Variable (rowsum : list N -> N) (digest : list (list N) -> list N -> list Z -> Z).

Definition metric_row (metrics : list (evaluator (N:=N))) (d : dataset N) (y : list N) : res (list N) :=
  mapM (fun f : evaluator => do v <- f d y; Ok (nf32 (fst v))) metrics.
Definition perf_of (metrics : list (evaluator (N:=N))) (i : nat) (o : obj (N:=N)) (a : answer (N:=N)) : res (list N) :=
  do y <- y_pred a; metric_row metrics (snd o) y.

Lemma model_performance_agrees st0 ds cache I (T : transparent rowsum digest st0 ds cache I) ms metrics :
  match mapM (fun o => mapM (fun i => do a <- alone rowsum digest st0 i o false; perf_of metrics i o a) ms) ds with
  | Ok bs => exists st', model_performance rowsum digest st0 ds ms metrics cache = Ok (st', bs) /\ I st'
  | Err e => model_performance rowsum digest st0 ds ms metrics cache = Err e
  end.
Proof.
  unfold model_performance.
  apply (per_dataset rowsum digest st0 ds cache I T false (perf_of metrics)
           (fun st o i => do r <- score_in rowsum digest st i o false cache;
                          do y <- y_pred (snd r);
                          do row <- metric_row metrics (snd o) y; Ok (fst r, row)) ms).
  - intros st o i _ _. unfold perf_of. destruct (score_in rowsum digest st i o false cache) as [r|]; cbn [bind]; [|reflexivity].
    destruct (y_pred (snd r)); cbn [bind]; reflexivity.
  - destruct T as [H _]. exact H.
  - intros x Hx. exact Hx.
Qed.

Theorem C57_uncached_lemma st ds ms (metrics : list (evaluator (N:=N))) :
  model_performance rowsum digest st ds ms metrics false
  = (do data <- mapM (fun o => mapM (fun i =>
        do a <- alone rowsum digest st i o false;
        do y <- y_pred a;
        mapM (fun f : evaluator => do v <- f (snd o) y; Ok (nf32 (fst v))) metrics) ms) ds; Ok (st, data)).
Proof.
  pose proof (model_performance_agrees st ds false _ (transparent_uncached rowsum digest st ds) ms metrics) as H.
  unfold perf_of, metric_row in H.
  destruct (mapM (fun o => mapM (fun i => do a <- alone rowsum digest st i o false; do y <- y_pred a; mapM (fun f : evaluator => do v <- f (snd o) y; Ok (nf32 (fst v))) metrics) ms) ds) as [data|e]; cbn [bind]; [|exact H].
  destruct H as [st' [-> ->]]. reflexivity.
Qed.
End Any.

Lemma at3_ok {A} (l : list (list (list A))) r q a b c v :
  nth_error l a = Some r -> nth_error r b = Some q -> nth_error q c = Some v -> at3 l a b c = Some v.
Proof. intros H1 H2 H3. unfold at3, at2. rewrite H1, H2. exact H3. Qed.
Lemma at2_ok {A} (l : list (list A)) r a b v : nth_error l a = Some r -> nth_error r b = Some v -> at2 l a b = Some v.
Proof. intros H1 H2. unfold at2. rewrite H1. exact H2. Qed.

Section Real.
Variable (rowsum : list RE -> RE) (digest : list (list RE) -> list RE -> list Z -> Z).
Hypothesis rowsum_exact : forall l, rowsum l = Rtotal l.
Variable (st : list (model RE)) (sh : list shape) (ds : list (obj (N:=RE))).
Hypothesis Hr : ready digest st sh ds.

Lemma alone_real i o m s : In o ds -> nth_error st i = Some m -> nth_error sh i = Some s ->
  (too_wide (ds_nf (snd o)) (fst s) /\ forall det, alone (N:=RE) rowsum digest st i o det = Err RuntimeError) \/
  (~ too_wide (ds_nf (snd o)) (fst s) /\
   alone (N:=RE) rowsum digest st i o false = Ok (Basic (N:=RE) (Some (scores_of m s (snd o)))) /\
   exists parts, alone (N:=RE) rowsum digest st i o true
     = Ok (Detailed (N:=RE) (Some (scores_of m s (snd o))) (Some parts) (Some (map (fun row => map (fun t => fst (exit_leaf (N:=RE) row t)) (fst s)) (ds_X (snd o))))) /\
     Forall2 (contribution (m_lr m) (m_base m) (snd s) (fst s)) (ds_X (snd o)) parts).
Proof.
  intros Ho Hm Hs. destruct Hr as [H1 [H2 _]]. destruct (Forall2_nth _ _ _ _ _ H1 Hm) as [s' [Hs' [Cm [Lay [Ne Nf]]]]].
  rewrite Hs in Hs'. injection Hs' as <-. rewrite Forall_forall in H2. pose proof (H2 o Ho) as [Hrow _]. unfold alone. rewrite Hm. cbn [of_option bind].
  destruct (L_Ensemble2.C37_check_lemma _ _ _ (snd o) Lay Ne) as [[E W]|[E W]].
  - left. split; [exact W|]. intros det. unfold score. rewrite E. reflexivity.
  - right. split; [exact W|]. destruct (C32_real_lemma rowsum rowsum_exact digest m o false (fst s) (snd s) Lay Ne Nf Hrow W Cm) as [E1 E2].
    assert (Es : map (fun row => (m_lr m * real_score (snd s) (fst s) row + base_of (m_base m))%R) (ds_X (snd o)) = scores_of m s (snd o)).
    { unfold scores_of, scores_first. apply map_ext. intros row. destruct Lay as [[_ [_ [_ [El _]]]] _]. change (length (snd s) = length (fst s)) in El. rewrite (firstn_all (fst s)). rewrite <- El, firstn_all. reflexivity. }
    rewrite <- Es. split; [exact E1|exact E2].
Qed.

Lemma store_shape i : (i < length st)%nat -> exists m s, nth_error st i = Some m /\ nth_error sh i = Some s.
Proof.
  intros Hi. destruct (nth_error st i) as [m|] eqn:Hm; [|apply nth_error_None in Hm; lia]. destruct Hr as [H1 _].
  destruct (Forall2_nth _ _ _ _ _ H1 Hm) as [s [Hs _]]. exists m, s. split; [reflexivity|exact Hs].
Qed.

(** The entries do not depend on the other ones nor on the cache. *)
Theorem C57_real_lemma ms metrics cache st' data :
  model_performance (N:=RE) rowsum digest st ds ms metrics cache = Ok (st', data) ->
  length data = length ds /\
  forall a b c o i f, nth_error ds a = Some o -> nth_error ms b = Some i -> nth_error metrics c = Some f ->
    exists m s v, nth_error st i = Some m /\ nth_error sh i = Some s /\
      f (snd o) (scores_of m s (snd o)) = Ok v /\ at3 data a b c = Some (fst v).
Proof.
  intros E. pose proof (model_performance_agrees rowsum digest st ds cache _ (transparent_cached rowsum digest rowsum_exact st sh ds cache Hr) ms metrics) as H.
  match type of H with match ?x with _ => _ end => destruct x as [bs|e] eqn:Eb end; [|rewrite E in H; discriminate].
  destruct H as [st2 [H _]]. rewrite E in H. injection H as <- <-. split; [apply (mapM_length _ _ Eb)|].
  intros a b c o i f Ha Hb Hc. destruct (mapM_nth _ _ _ _ _ Eb Ha) as [row [Hrow Erow]]. destruct (mapM_nth _ _ _ _ _ Erow Hb) as [cell [Hcell Ecell]].
  assert (Hin : In o ds) by (apply nth_error_In in Ha; exact Ha).
  destruct (nth_error st i) as [m|] eqn:Hm; [|unfold alone in Ecell; rewrite Hm in Ecell; discriminate].
  destruct Hr as [H1 _]. destruct (Forall2_nth _ _ _ _ _ H1 Hm) as [s [Hs _]].
  destruct (alone_real i o m s Hin Hm Hs) as [[_ E1]|[_ [E1 _]]]; rewrite E1 in Ecell; [discriminate|]. cbn [bind] in Ecell.
  unfold perf_of in Ecell. cbn [y_pred bind] in Ecell. destruct (mapM_nth _ _ _ _ _ Ecell Hc) as [w [Hw Ew]].
  apply bind_ok in Ew. destruct Ew as [v [Ev Ew]]. injection Ew as <-. exists m, s, v. split; [reflexivity|]. split; [exact Hs|]. split; [exact Ev|].
  exact (at3_ok _ _ _ _ _ _ _ Hrow Hcell Hw).
Qed.

(** It raises only because one of the evaluations raises. *)
Theorem C57_raises_lemma ms metrics cache e : Forall (fun i => (i < length st)%nat) ms ->
  model_performance (N:=RE) rowsum digest st ds ms metrics cache = Err e ->
  exists o i m s, In o ds /\ In i ms /\ nth_error st i = Some m /\ nth_error sh i = Some s /\
    ((too_wide (ds_nf (snd o)) (fst s) /\ e = RuntimeError) \/ exists f, In f metrics /\ f (snd o) (scores_of m s (snd o)) = Err e).
Proof.
  intros Hms E. pose proof (model_performance_agrees rowsum digest st ds cache _ (transparent_cached rowsum digest rowsum_exact st sh ds cache Hr) ms metrics) as H.
  match type of H with match ?x with _ => _ end => destruct x as [bs|e'] eqn:Eb end; [destruct H as [st2 [H _]]; rewrite E in H; discriminate|].
  rewrite E in H. injection H as <-. destruct (mapM_err _ _ _ Eb) as [o [Ho Eo]]. destruct (mapM_err _ _ _ Eo) as [i [Hi Ei]].
  rewrite Forall_forall in Hms. destruct (store_shape i (Hms i Hi)) as [m [s [Hm Hs]]].
  exists o, i, m, s. split; [exact Ho|]. split; [exact Hi|]. split; [exact Hm|]. split; [exact Hs|].
  destruct (alone_real i o m s Ho Hm Hs) as [[W E1]|[_ [E1 _]]]; rewrite E1 in Ei; cbn [bind] in Ei.
  - left. split; [exact W|]. congruence.
  - right. unfold perf_of in Ei. cbn [y_pred bind] in Ei. destruct (mapM_err _ _ _ Ei) as [f [Hf Ef]]. exists f. split; [exact Hf|].
    destruct (f (snd o) (scores_of m s (snd o))); cbn [bind] in Ef; [discriminate|injection Ef as ->; reflexivity].
Qed.
(** And it raises as soon as one of them raises. *)
Theorem C57_succeeds_lemma ms metrics cache o i m s : In o ds -> In i ms -> nth_error st i = Some m -> nth_error sh i = Some s ->
  (too_wide (ds_nf (snd o)) (fst s) \/ exists f e, In f metrics /\ f (snd o) (scores_of m s (snd o)) = Err e) ->
  exists e, model_performance (N:=RE) rowsum digest st ds ms metrics cache = Err e.
Proof.
  intros Ho Hi Hm Hs Hbad. destruct (model_performance (N:=RE) rowsum digest st ds ms metrics cache) as [[st' data]|e] eqn:E; [exfalso|exists e; reflexivity].
  destruct (In_nth_error _ _ Ho) as [a Ha]. destruct (In_nth_error _ _ Hi) as [b Hb].
  pose proof (model_performance_agrees rowsum digest st ds cache _ (transparent_cached rowsum digest rowsum_exact st sh ds cache Hr) ms metrics) as H.
  match type of H with match ?x with _ => _ end => destruct x as [bs|e] eqn:Eb end; [|rewrite E in H; discriminate].
  destruct (mapM_nth _ _ _ _ _ Eb Ha) as [row [Hrow Erow]]. destruct (mapM_nth _ _ _ _ _ Erow Hb) as [cell [Hcell Ecell]].
  destruct (alone_real i o m s Ho Hm Hs) as [[W E1]|[W [E1 _]]]; rewrite E1 in Ecell; [discriminate|]. cbn [bind] in Ecell.
  destruct Hbad as [Hbad|[f [e [Hf Ef]]]]; [exact (W Hbad)|]. destruct (In_nth_error _ _ Hf) as [c Hc].
  unfold perf_of in Ecell. cbn [y_pred bind] in Ecell. destruct (mapM_nth _ _ _ _ _ Ecell Hc) as [w [_ Ew]]. rewrite Ef in Ew. discriminate.
Qed.
End Real.
