(** Proofs about the NDCG object (C25). *)
From Coq Require Import List ZArith Lia Bool Permutation.
From Verif Require Import Base Lists Num M_Dataset S_Dataset L_Dataset L_Dataset3 L_Query M_Metrics S_Metrics L_Metrics
  L_MetricEval M_NDCG S_NDCG.
Import ListNotations.

Lemma map_snd_combine {A B} (a : list A) (b : list B) : length a = length b -> map snd (combine a b) = b.
Proof. revert b. induction a; intros [|x b]; cbn; try discriminate; auto. intros. f_equal. apply IHa. lia. Qed.

Lemma made_offs {V} (d : dataset V) : made d -> length (ds_offs d) = S (length (ds_qids d)).
Proof.
  intros (nf & X & y & ids & H). destruct (ds_init_inv _ _ _ _ H) as [_ E]. subst d. cbn [ds_offs ds_qids].
  rewrite app_length, map_length. cbn. lia.
Qed.

Lemma sorting_permutes {N : num} (argsort : list N -> list nat) : sorting argsort -> permuting argsort.
Proof. intros H s. apply H. Qed.
Lemma take_perm {N : num} (argsort : list N -> list nat) cutoff (y s : list N) : permuting argsort -> length y = length s ->
  take y (order argsort cutoff s) = Ok (firstn (retrieved cutoff (length s)) (ranked argsort y s)).
Proof.
  intros Hs HL. assert (LE : length (argsort s) = length s) by (rewrite (Permutation_length (Hs s)); apply seq_length).
  rewrite (take_ok y _ nzero).
  - rewrite order_eq by exact LE. unfold ranked. rewrite firstn_map. reflexivity.
  - intros i Hi. rewrite order_eq in Hi by exact LE. apply In_firstn in Hi. apply in_rev in Hi.
    apply (Permutation_in _ (Hs s)) in Hi. apply in_seq in Hi. lia.
Qed.

Section L.
Context {N : num}.
Variable argsort : list N -> list nat.
Hypothesis Hs : permuting argsort.
Variable digest : list (list N) -> list N -> list Z -> Z.
Variables (norel : N) (g : gain_kind) (cutoff : option Z).

Notation after := (after argsort digest norel g cutoff).
Notation ndcg_eval := (ndcg_eval argsort digest norel g cutoff).
Notation ndcg_pq := (ndcg_per_query argsort digest norel g cutoff).
Notation ndcg_loop := (ndcg_loop argsort digest norel g cutoff).
Notation idcg_scores := (idcg_scores argsort g cutoff).
Notation dcg := (dcg argsort g cutoff).
Notation cache_find := (cache_find digest).
Notation nd32 := (ndcg32 argsort norel g cutoff).

Lemma queries_length d s : made d -> length (metric_queries (N:=N) d s) = n_queries d.
Proof.
  intros (nf & X & y & ids & H). unfold metric_queries. rewrite map_length. eapply iter_length; eauto.
Qed.

Lemma queries_snd d s : made d ->
  map snd (metric_queries (N:=N) d s)
  = map (fun p => (slice (Z.of_nat (fst p)) (Z.of_nat (snd p)) (ds_y d), slice (Z.of_nat (fst p)) (Z.of_nat (snd p)) s))
        (combine (ds_offs d) (tl (ds_offs d))).
Proof.
  intros M. pose proof (made_offs d M) as L. unfold metric_queries, query_iterator. rewrite map_map. cbn [snd].
  rewrite <- (map_map snd (fun p => (slice (Z.of_nat (fst p)) (Z.of_nat (snd p)) (ds_y d), slice (Z.of_nat (fst p)) (Z.of_nat (snd p)) s))).
  rewrite map_snd_combine; auto. rewrite combine_length.
  destruct (ds_offs d); cbn [length tl] in *; lia.
Qed.

Lemma idcg_eq d : made d ->
  idcg_scores d = do v <- mapM (fun p => dcg (fst p) (fst p)) (map snd (metric_queries d (ds_y d))); Ok (map nf32 v).
Proof.
  intros M. unfold M_NDCG.idcg_scores. rewrite <- (queries_length d (ds_y d) M).
  pose proof (fill_slots (fun t : Z * (list N * list N) => do x <- dcg (fst (snd t)) (fst (snd t)); Ok (nf32 x)) (metric_queries d (ds_y d)) [] nzero) as F.
  cbn [length app] in F.
  rewrite (foldM_ext _ (fun acc t => do x <- (do x <- dcg (fst (snd (snd t))) (fst (snd (snd t))); Ok (nf32 x)); py_set acc (Z.of_nat (fst t)) x)).
  2:{ intros b x _. destruct (dcg _ _); reflexivity. }
  rewrite F. rewrite mapM_post, mapM_map.
  destruct (mapM (fun x => dcg (fst (snd x)) (fst (snd x))) (metric_queries d (ds_y d))); reflexivity.
Qed.

Lemma idcg_same k d : made k -> made d -> ds_y k = ds_y d -> ds_offs k = ds_offs d -> idcg_scores k = idcg_scores d.
Proof. intros Mk Md E1 E2. rewrite !idcg_eq by auto. rewrite !queries_snd by auto. rewrite E1, E2. reflexivity. Qed.

Lemma dcg_ok y s : length y = length s -> g <> OtherImpl -> exists x, dcg y s = Ok x.
Proof. intros HL Hg. unfold M_Metrics.dcg. rewrite take_perm by auto. cbn [bind]. destruct g; [eauto|eauto|]. contradiction Hg; reflexivity. Qed.

Lemma dcg_other y s : g = OtherImpl -> dcg y s = Err UnboundLocalError.
Proof. unfold M_Metrics.dcg. intros ->. auto. Qed.

Lemma dcg_yy y : (exists x, dcg y y = Ok x) \/ g = OtherImpl.
Proof.
  unfold M_Metrics.dcg. rewrite take_perm by auto. cbn [bind]. destruct g; eauto.
Qed.

Lemma idcg_err d e : made d -> idcg_scores d = Err e -> g = OtherImpl /\ e = UnboundLocalError /\ n_queries d <> 0%nat.
Proof.
  intros M. rewrite idcg_eq by auto. rewrite <- (queries_length d (ds_y d) M).
  destruct (metric_queries d (ds_y d)) as [|t l]; [discriminate|].
  intros H. destruct (dcg_yy (fst (snd t))) as [[x E]|Eg].
  - assert (Hg : g <> OtherImpl) by (intros Eg; rewrite dcg_other in E; [discriminate|auto]). exfalso.
    assert (G : forall l : list (list N * list N), exists v, mapM (fun p => dcg (fst p) (fst p)) l = Ok v).
    { induction l0 as [|p l0 [v IH]]; cbn; eauto. destruct (dcg_ok (fst p) (fst p) eq_refl Hg) as [w ->]. cbn. rewrite IH. cbn. eauto. }
    destruct (G (map snd (t :: l))) as [v Ev]. rewrite Ev in H. discriminate.
  - cbn [map mapM bind] in H. rewrite dcg_other in H by auto. cbn in H. inversion H. cbn. auto.
Qed.

Lemma nd32_other y s : g = OtherImpl -> nd32 y s = Err UnboundLocalError.
Proof. intros Eg. unfold ndcg32. rewrite dcg_other by auto. reflexivity. Qed.

Lemma eval32_other d s : made d -> g = OtherImpl -> n_queries d <> 0%nat -> metric_eval nd32 d s = Err UnboundLocalError.
Proof.
  intros M Eg Hn. rewrite metric_eval_gen by (apply queries_length; auto).
  rewrite <- (queries_length d s M) in Hn. destruct (metric_queries d s) as [|t l]; [cbn in Hn; congruence|].
  cbn [mapM]. rewrite nd32_other by auto. reflexivity.
Qed.

(** The loop, when the right ideal scores are in the cache. *)
Lemma loop_good o v : forall (ts : list (Z * (list N * list N))) i acc st,
  st_rel_qid st = Some i -> st_current st = Some o -> cache_find (st_cache st) o = Ok (Some (Some v)) ->
  (forall j t, nth_error ts j = Some t ->
     exists x, dcg (fst (snd t)) (fst (snd t)) = Ok x /\ nth_error v (i + j) = Some (nf32 x)) ->
  exists st', ndcg_loop st (combine (seq i (length ts)) ts) acc
    = (st', foldM (fun acc t => do x <- nd32 (fst (snd (snd t))) (snd (snd (snd t))); py_set acc (Z.of_nat (fst t)) (nf32 x))
              (combine (seq i (length ts)) ts) acc) /\
    st_current st' = Some o /\ st_cache st' = st_cache st /\
    (is_ok (snd (ndcg_loop st (combine (seq i (length ts)) ts) acc)) = true -> st_rel_qid st' = Some (i + length ts)%nat) /\
    st_rel_qid st' <> None.
Proof.
  induction ts as [|t ts IH]; intros i acc st Hr Hc Hf Hv.
  - exists st. cbn. rewrite Nat.add_0_r. repeat split; auto. congruence.
  - cbn [length seq combine M_NDCG.ndcg_loop foldM fst snd].
    destruct (Hv 0%nat t eq_refl) as (x & Ex & Ev). rewrite Nat.add_0_r in Ev.
    unfold ndcg_per_query at 1. unfold ndcg_per_query at 1. unfold ndcg32 at 1. rewrite Ex.
    destruct (dcg (fst (snd t)) (snd (snd t))) as [a|e] eqn:Ea; cbn [bind].
    2:{ exists st. cbn [snd is_ok]. repeat split; auto; [discriminate|congruence]. }
    rewrite Hr, Hc, Hf.
    assert (Eg : py_get v (Z.of_nat i) = Ok (nf32 x)).
    { unfold py_get. destruct (Z.ltb_spec (Z.of_nat i) 0); [lia|]. unfold zget.
      destruct (Z.ltb_spec (Z.of_nat i) 0); [lia|]. rewrite Nat2Z.id, Ev. reflexivity. }
    rewrite Eg. cbn [bind].
    assert (En : ndcg_of norel a (nf32 x) = if neqb (nf32 x) nzero then norel else ndiv a (nf32 x)).
    { unfold ndcg_of. destruct (neqb (nf32 x) nzero); reflexivity. }
    rewrite En. destruct (py_set acc (Z.of_nat i) _) as [acc'|e] eqn:Es; cbn [bind].
    2:{ eexists. cbn [snd is_ok]. repeat split; auto; [discriminate|cbn; congruence]. }
    match goal with |- context [M_NDCG.ndcg_loop _ _ _ _ _ ?st1 _ _] =>
      destruct (IH (S i) acc' st1) as (st' & E & C1 & C2 & C3 & C4) end; auto.
    + intros j t' Hj. destruct (Hv (S j) t' Hj) as (x' & A & B). exists x'. split; auto.
      replace (S i + j)%nat with (i + S j)%nat by lia. auto.
    + exists st'. split; [exact E|]. repeat split; auto.
      intros H. rewrite C3 by exact H. f_equal. lia.
Qed.

Lemma queries_y d s j t : made d -> nth_error (metric_queries (N:=N) d s) j = Some t ->
  exists t', nth_error (metric_queries d (ds_y d)) j = Some t' /\ fst (snd t') = fst (snd t).
Proof.
  intros _ H. unfold metric_queries in *. rewrite nth_error_map' in *.
  destruct (nth_error (query_iterator d) j); [|discriminate]. inversion H; subst. cbn. eexists. split; [reflexivity|]. auto.
Qed.

Lemma idcg_nth d v : made d -> idcg_scores d = Ok v ->
  forall s j t, nth_error (metric_queries d s) j = Some t ->
    exists x, dcg (fst (snd t)) (fst (snd t)) = Ok x /\ nth_error v j = Some (nf32 x).
Proof.
  intros M H s j t Hj. rewrite idcg_eq in H by auto.
  destruct (queries_y _ _ _ _ M Hj) as (t' & Hj' & Ey). rewrite <- Ey.
  clear Hj. revert j v H Hj'. generalize (metric_queries d (ds_y d)).
  induction l as [|a l IH]; intros j v H Hj'; [destruct j; discriminate|].
  cbn [map mapM bind] in H. destruct (dcg (fst (snd a)) (fst (snd a))) as [x|] eqn:E; [|discriminate]. cbn [bind] in H.
  destruct (mapM _ (map snd l)) as [w|] eqn:Em; [|discriminate]. cbn in H. inversion H; subst. clear H.
  destruct j; cbn in Hj' |- *.
  - inversion Hj'; subst. eauto.
  - apply (IH j (map nf32 w)); auto.
Qed.

(** ** the cache *)
Lemma key_refl o : key_eq digest o o = Ok true.
Proof. unfold key_eq. rewrite Z.eqb_refl, Nat.eqb_refl. reflexivity. Qed.

Lemma find_app_none c o w : cache_find c o = Ok None -> cache_find (c ++ [(o, w)]) o = Ok (Some w).
Proof.
  induction c as [|[k v] c IH]; cbn [app M_NDCG.cache_find].
  - intros _. rewrite key_refl. reflexivity.
  - destruct (key_eq digest k o) as [[]|]; cbn [bind]; try discriminate. auto.
Qed.

Lemma find_In c o w : cache_find c o = Ok (Some w) -> exists k, In (k, w) c /\ key_eq digest k o = Ok true.
Proof.
  induction c as [|[k v] c IH]; cbn [M_NDCG.cache_find]; [discriminate|].
  destruct (key_eq digest k o) as [[]|] eqn:E; cbn [bind]; try discriminate.
  - intros H. inversion H; subst. exists k. split; auto. left; auto.
  - intros H. destruct (IH H) as (k' & A & B). exists k'. split; auto. right; auto.
Qed.

Definition inv (h : list (call (N:=N))) (st : nstate (N:=N)) : Prop :=
  (forall k v, In (k, v) (st_cache st) -> In k (evaluated h) /\ exists w, v = Some w /\ idcg_scores (snd k) = Ok w) /\
  (forall r, st_rel_qid st = Some r -> exists o, st_current st = Some o /\
     (cache_find (st_cache st) o <> Ok None \/ g = OtherImpl)).

Lemma pq_cache st y s h : inv h st ->
  st_cache (fst (ndcg_pq st y s)) = st_cache st /\ st_current (fst (ndcg_pq st y s)) = st_current st /\
  (st_rel_qid (fst (ndcg_pq st y s)) = None -> st_rel_qid st = None).
Proof.
  intros [I1 I2]. unfold ndcg_per_query. destruct (dcg y s) as [a|] eqn:Ed; [|auto].
  destruct (st_rel_qid st) as [r|] eqn:Er; [|cbn; auto].
  destruct (I2 r eq_refl) as (o & Eo & Hf). rewrite Eo.
  destruct (cache_find (st_cache st) o) as [[[v|]|]|e] eqn:Ef.
  - destruct (py_get v (Z.of_nat r)); cbn; repeat split; auto; congruence.
  - cbn; repeat split; auto; congruence.
  - exfalso. destruct Hf as [Hf|Hg]; [congruence|]. rewrite dcg_other in Ed by auto. discriminate.
  - cbn; repeat split; auto; congruence.
Qed.

Lemma inv_cache h st st' : inv h st -> st_cache st' = st_cache st -> st_current st' = st_current st ->
  (st_rel_qid st = None -> st_rel_qid st' = None) -> inv h st'.
Proof.
  intros [I1 I2] Hc Hd Hr. split; [rewrite Hc; auto|].
  intros r Er. rewrite Hd, Hc. destruct (st_rel_qid st) as [r0|] eqn:E; [apply (I2 r0); auto|].
  rewrite Hr in Er; [discriminate|auto].
Qed.

Lemma pq_rel_none st y s : st_rel_qid st = None -> st_rel_qid (fst (ndcg_pq st y s)) = None.
Proof. intros E. unfold ndcg_per_query. destruct (dcg y s); [|auto]. rewrite E. auto. Qed.

Lemma inv_pq h st y s : inv h st -> inv h (fst (ndcg_pq st y s)).
Proof.
  intros I. destruct (pq_cache st y s h I) as (A & B & _). eapply inv_cache; eauto. apply pq_rel_none.
Qed.

Lemma inv_loop h ts : forall st acc, inv h st -> inv h (fst (ndcg_loop st ts acc)).
Proof.
  induction ts as [|t ts IH]; intros st acc I; [auto|]. cbn [M_NDCG.ndcg_loop].
  pose proof (inv_pq h st (fst (snd (snd t))) (snd (snd (snd t))) I) as I'.
  destruct (ndcg_pq st _ _) as [st' r]. cbn [fst] in I'. destruct (bind r _); cbn; auto.
Qed.

Lemma inv_super h st d s : inv h st -> inv h (fst (ndcg_super_eval argsort digest norel g cutoff st d s)).
Proof.
  intros I. unfold ndcg_super_eval.
  pose proof (inv_loop h (combine (seq 0 (length (metric_queries d s))) (metric_queries d s)) st (repeat nzero (n_queries d)) I) as I'.
  destruct (ndcg_loop st _ _) as [st' r]. exact I'.
Qed.

Lemma inv_weaken h st c : inv h st -> inv (h ++ [c]) st.
Proof.
  intros [I1 I2]. split; auto. intros k v Hk. destruct (I1 k v Hk). split; auto.
  unfold evaluated. rewrite flat_map_app. apply in_or_app. auto.
Qed.

Lemma inv_eval h st o s : made (snd o) -> inv h st -> inv (h ++ [CallEval o s]) (fst (ndcg_eval st o s)).
Proof.
  intros M I. assert (I' := inv_weaken h st (CallEval o s) I). unfold M_NDCG.ndcg_eval. cbn [st_cache].
  destruct (cache_find (st_cache st) o) as [[w|]|e] eqn:Ef.
  - apply inv_super. destruct I' as [A B]. split; cbn; auto. intros r _. exists o. split; auto. left. congruence.
  - destruct (idcg_scores (snd o)) as [v|e] eqn:Ei.
    + apply inv_super. destruct I' as [A B]. split; cbn [st_cache st_rel_qid st_current].
      * intros k w Hk. apply in_app_or in Hk. destruct Hk as [Hk|[Hk|[]]]; auto. inversion Hk; subst. split; [|eauto].
        unfold evaluated. rewrite flat_map_app. apply in_or_app. right. cbn. auto.
      * intros r _. exists o. split; auto. left. rewrite (find_app_none _ _ _ Ef). congruence.
    + destruct I' as [A B]. cbn [fst]. split; cbn; auto. intros r _. exists o. split; auto. right.
      apply (idcg_err (snd o) e M Ei).
  - destruct I' as [A B]. cbn [fst]. split; cbn; auto. intros r _. exists o. split; auto. left. congruence.
Qed.

Lemma inv_after h : Forall (fun k => made (snd k)) (evaluated h) -> inv h (after h).
Proof.
  induction h as [|c h IH] using rev_ind; intros Hm.
  - split; cbn; [intros ? ? []|discriminate].
  - unfold evaluated in Hm. rewrite flat_map_app in Hm. apply Forall_app in Hm. destruct Hm as [Hm Hc].
    unfold M_NDCG.after. rewrite fold_left_app. cbn [fold_left]. specialize (IH Hm). destruct c as [o s|y s]; cbn [step].
    + apply inv_eval; auto. cbn in Hc. inversion Hc; auto.
    + apply inv_weaken, inv_pq, IH.
Qed.

(** ** C25 *)
Lemma find_compat c o : (forall k v, In (k, v) c -> compatible digest k o) ->
  exists r, cache_find c o = Ok r.
Proof.
  induction c as [|[k v] c IH]; intros H; cbn [M_NDCG.cache_find]; [eauto|].
  assert (exists b, key_eq digest k o = Ok b) as [b Eb].
  { destruct (H k v (or_introl eq_refl)) as [->|[Hne Hc]]; [rewrite key_refl; eauto|].
    unfold key_eq. destruct (Z.eqb_spec (ds_hash digest (snd k)) (ds_hash digest (snd o))) as [E|]; cbn [negb]; [|eauto].
    destruct (Nat.eqb_spec (fst k) (fst o)); [congruence|]. destruct (Hc E) as (b & -> & _). eauto. }
  rewrite Eb. cbn [bind]. destruct b; [eauto|]. apply IH. intros. eapply H. right. eauto.
Qed.

Lemma key_true k o : made (snd k) -> made (snd o) -> compatible digest k o -> key_eq digest k o = Ok true ->
  idcg_scores (snd k) = idcg_scores (snd o).
Proof.
  intros Mk Mo [->|[Hne Hc]]; [auto|]. unfold key_eq.
  destruct (Z.eqb_spec (ds_hash digest (snd k)) (ds_hash digest (snd o))) as [E|]; cbn [negb]; [|discriminate].
  destruct (Nat.eqb_spec (fst k) (fst o)); [congruence|]. destruct (Hc E) as (b & Eb & Hb). intros H.
  rewrite Eb in H. inversion H; subst. destruct (Hb eq_refl). apply idcg_same; auto.
Qed.

Lemma super_good st o v s : made (snd o) -> st_rel_qid st = Some 0%nat -> st_current st = Some o ->
  cache_find (st_cache st) o = Ok (Some (Some v)) -> idcg_scores (snd o) = Ok v ->
  snd (ndcg_super_eval argsort digest norel g cutoff st (snd o) s) = metric_eval nd32 (snd o) s /\
  (is_ok (snd (ndcg_super_eval argsort digest norel g cutoff st (snd o) s)) = true ->
   let st' := fst (ndcg_super_eval argsort digest norel g cutoff st (snd o) s) in
   st_current st' = Some o /\ st_cache st' = st_cache st /\ st_rel_qid st' = Some (n_queries (snd o))).
Proof.
  intros M Hr Hc Hf Hi. unfold ndcg_super_eval.
  destruct (loop_good o v (metric_queries (snd o) s) 0 (repeat nzero (n_queries (snd o))) st Hr Hc Hf) as (st' & E & C1 & C2 & C3 & _).
  { intros j t Hj. cbn [Nat.add]. apply (idcg_nth _ _ M Hi s j t Hj). }
  rewrite E in C3. rewrite E. cbn [fst snd] in *. split; [reflexivity|].
  intros Hok. split; auto. split; auto. cbn [Nat.add] in C3.
  assert (QL := queries_length (snd o) s M). rewrite <- QL at 1.
  apply C3. destruct (foldM _ _ _); [reflexivity|exact Hok].
Qed.

Lemma C25_eval_lemma h o s :
  Forall (fun k => made (snd k)) (evaluated h) -> made (snd o) ->
  Forall (fun k => compatible digest k o) (evaluated h) ->
  snd (ndcg_eval (after h) o s) = metric_eval nd32 (snd o) s /\
  (is_ok (snd (ndcg_eval (after h) o s)) = true -> g <> OtherImpl ->
   forall y' s', length y' = length s' ->
     ndcg_pq (fst (ndcg_eval (after h) o s)) y' s' = (fst (ndcg_eval (after h) o s), Err IndexError)).
Proof.
  intros Hm M Hc. destruct (inv_after h Hm) as [I1 _]. set (st := after h) in *.
  assert (FC : forall k v, In (k, v) (st_cache st) -> compatible digest k o).
  { intros k v Hk. rewrite Forall_forall in Hc. apply Hc. apply (I1 k v Hk). }
  destruct (find_compat _ _ FC) as [r Er].
  assert (P : forall st0 v, st_rel_qid st0 = Some 0%nat -> st_current st0 = Some o ->
     cache_find (st_cache st0) o = Ok (Some (Some v)) -> idcg_scores (snd o) = Ok v ->
     snd (ndcg_super_eval argsort digest norel g cutoff st0 (snd o) s) = metric_eval nd32 (snd o) s /\
     (is_ok (snd (ndcg_super_eval argsort digest norel g cutoff st0 (snd o) s)) = true -> g <> OtherImpl ->
      forall y' s', length y' = length s' ->
       ndcg_pq (fst (ndcg_super_eval argsort digest norel g cutoff st0 (snd o) s)) y' s'
       = (fst (ndcg_super_eval argsort digest norel g cutoff st0 (snd o) s), Err IndexError))).
  { intros st0 v A B C D. destruct (super_good st0 o v s M A B C D) as [E1 E2]. split; auto.
    intros Hok Hg y' s' HL. destruct (E2 Hok) as (F1 & F2 & F3).
    unfold ndcg_per_query. destruct (dcg_ok y' s' HL Hg) as [x ->]. rewrite F1, F3, F2, C.
    assert (Lv : length v = n_queries (snd o)).
    { rewrite idcg_eq in D by auto. destruct (mapM _ (map snd _)) as [w|] eqn:Em; [|discriminate]. cbn in D. inversion D.
      rewrite map_length, (mapM_length _ _ _ Em), map_length. apply queries_length; auto. }
    unfold py_get. destruct (Z.ltb_spec (Z.of_nat (n_queries (snd o))) 0); [lia|]. unfold zget.
    destruct (Z.ltb_spec (Z.of_nat (n_queries (snd o))) 0); [lia|]. rewrite Nat2Z.id.
    rewrite (proj2 (nth_error_None v _)) by lia. reflexivity. }
  unfold M_NDCG.ndcg_eval. cbn [st_cache]. fold st. rewrite Er. destruct r as [w|].
  - destruct (find_In _ _ _ Er) as (k & Hk & Ek). destruct (I1 _ _ Hk) as (He & v & -> & Ei).
    apply (P _ v); auto. rewrite <- Ei. symmetry. apply key_true; auto.
    + rewrite Forall_forall in Hm. apply Hm. auto.
    + apply (FC _ _ Hk).
  - destruct (idcg_scores (snd o)) as [v|e] eqn:Ei.
    + apply (P _ v); auto. cbn [st_cache]. apply find_app_none. auto.
    + destruct (idcg_err _ _ M Ei) as (Eg & -> & Hn). cbn [fst snd]. split; [|discriminate].
      symmetry. apply eval32_other; auto.
Qed.

Lemma C25_fresh_lemma h y s : evaluated h = [] ->
  snd (ndcg_pq (after h) y s) = ndcg_fresh argsort norel g cutoff y s.
Proof.
  intros Hh. assert (E : st_rel_qid (after h) = None).
  { induction h as [|c h IH] using rev_ind; [reflexivity|].
    unfold evaluated in Hh. rewrite flat_map_app in Hh. apply app_eq_nil in Hh. destruct Hh as [Hh Hc].
    destruct c as [o s0|y0 s0]; [discriminate|]. unfold M_NDCG.after. rewrite fold_left_app. cbn [fold_left step].
    apply pq_rel_none. apply IH. exact Hh. }
  unfold ndcg_per_query, ndcg_fresh. destruct (dcg y s); [|reflexivity]. rewrite E. reflexivity.
Qed.
End L.
