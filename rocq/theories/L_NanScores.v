(** Proofs about NaN scores and labels. *)
From Coq Require Import List ZArith Lia Bool Permutation Sorted SpecFloat.
From Verif Require Import Base Lists Num M_Dataset S_Dataset L_Dataset M_Metrics S_Metrics L_Metrics L_MetricEval M_IEEE S_Missing L_Missing S_Ensemble M_NDCG S_NDCG L_NDCG S_NanScores.
Import ListNotations.

(** The same numbers with NumPy's order as their comparison, to use the lemmas of L_Metrics.v. *)
Definition npn (N : num) : num :=
  mkNum N nzero none nadd nsub nmul ndiv np_leb nltb neqb nofZ nexp2 nlog2 nsqrt npow nisnan nf32.

Section Nan.
Context {N : num}.
Implicit Types (y s : list N) (argsort : list N -> list nat).

Lemma np_is_sorting argsort : np_sorting argsort -> sorting (N:=npn N) argsort.
Proof. intros H. exact H. Qed.
Lemma np_len argsort s : np_sorting argsort -> length (argsort s) = length s.
Proof. intros H. exact (sorts_length (N:=npn N) s (argsort s) (H s)). Qed.
Lemma np_bound argsort s i : np_sorting argsort -> In i (argsort s) -> (i < length s)%nat.
Proof. intros H. exact (sorts_bound (N:=npn N) s (argsort s) i (H s)). Qed.

Hypothesis HN : has_nans N.

Lemma np_total (a b : N) : np_leb a b = true \/ np_leb b a = true.
Proof.
  unfold np_leb. destruct (nisnan a) eqn:A, (nisnan b) eqn:B; cbn; auto. apply (hn_total _ HN); auto.
Qed.
Lemma leb_not_nan (a b : N) : nleb a b = true -> nisnan a = false /\ nisnan b = false.
Proof.
  intros H. destruct (nisnan a) eqn:A.
  { destruct (hn_compare _ HN a b (or_introl A)); congruence. }
  destruct (nisnan b) eqn:B; auto. destruct (hn_compare _ HN a b (or_intror B)); congruence.
Qed.
Lemma np_trans (a b c : N) : np_leb a b = true -> np_leb b c = true -> np_leb a c = true.
Proof.
  unfold np_leb. intros H1 H2. destruct (nisnan c) eqn:C; auto. cbn in *. apply leb_not_nan in H2 as B. destruct B as [B _].
  rewrite B in H1. cbn in H1. eapply (hn_trans _ HN); eauto.
Qed.

Lemma np_argsort_ok : np_sorting (np_argsort (N:=N)) /\ np_comparing (np_argsort (N:=N)).
Proof.
  split.
  - intros s.
    assert (E : np_argsort s = isort (fun i j => np_leb (nth i s nzero) (nth j s nzero)) (seq 0 (length s))) by exact (stable_argsort_eq (N:=npn N) s).
    rewrite E. split; [apply isort_perm|].
    assert (S : StronglySorted (fun i j => np_leb (nth i s nzero) (nth j s nzero) = true)
                (isort (fun i j => np_leb (nth i s nzero) (nth j s nzero)) (seq 0 (length s)))).
    { apply isort_sorted.
      - intros a b. destruct (np_total (nth a s nzero) (nth b s nzero)); auto.
      - intros a b c. apply np_trans. }
    eapply StronglySorted_ind with (P := fun l => StronglySorted _ l) in S; [exact S|constructor|].
    intros a l SS IH F. constructor; auto. rewrite Forall_forall in *. intros j Hj v w Hv Hw.
    rewrite <- (nth_error_nth _ _ nzero Hv), <- (nth_error_nth _ _ nzero Hw). auto.
  - exact (stable_argsort_comparison (N:=npn N)).
Qed.

(** ** The ranking *)
Lemma split_sorted (p : nat -> bool) : forall l, StronglySorted (fun i j => p i = true -> p j = true) l ->
  l = filter (fun i => negb (p i)) l ++ filter p l.
Proof.
  induction l as [|i l IH]; intros H; [reflexivity|]. inversion H as [|? ? S F]; subst. cbn [filter].
  destruct (p i) eqn:P; cbn [negb].
  - assert (E : filter (fun j => negb (p j)) l = []).
    { rewrite Forall_forall in F. clear - F P. induction l as [|j l IH]; [reflexivity|]. cbn [filter].
      rewrite (F j (or_introl eq_refl) eq_refl). cbn. apply IH. intros x Hx. apply F. right; auto. }
    rewrite E. cbn. f_equal. rewrite (IH S) at 1. rewrite E. reflexivity.
  - cbn [app]. f_equal. auto.
Qed.
Definition isnan_at s i := match nth_error s i with Some v => nisnan v | None => false end.

Lemma filter_rev' {A} (p : A -> bool) l : filter p (rev l) = rev (filter p l).
Proof. induction l as [|a l IH]; [reflexivity|]. cbn [rev filter]. rewrite filter_app, IH. cbn. destruct (p a); cbn; [reflexivity|apply app_nil_r]. Qed.
Lemma filter_perm {A} (p : A -> bool) l l' : Permutation l l' -> Permutation (filter p l) (filter p l').
Proof.
  induction 1; cbn; auto.
  - destruct (p x); auto.
  - destruct (p x), (p y); auto. apply perm_swap.
  - etransitivity; eauto.
Qed.
Lemma filter_eq {A} (p q : A -> bool) l : (forall x, In x l -> p x = q x) -> filter p l = filter q l.
Proof. induction l as [|a l IH]; intros H; [reflexivity|]. cbn. rewrite (H a) by (left; auto). rewrite IH by (intros; apply H; right; auto). reflexivity. Qed.
Lemma StronglySorted_filter {A} (R : A -> A -> Prop) (p : A -> bool) l : StronglySorted R l -> StronglySorted R (filter p l).
Proof.
  induction 1 as [|a l S IH F]; cbn; [constructor|]. destruct (p a); auto. constructor; auto.
  rewrite Forall_forall in *. intros x Hx. apply filter_In in Hx. apply F, Hx.
Qed.
Lemma StronglySorted_app' {A} (R : A -> A -> Prop) l : forall a, StronglySorted R l -> Forall (fun x => R x a) l -> StronglySorted R (l ++ [a]).
Proof.
  induction l as [|b l IH]; intros a S F; cbn; [constructor; constructor|]. inversion S; inversion F; subst. constructor; [apply IH; auto|].
  apply Forall_app. split; auto.
Qed.
Lemma StronglySorted_rev {A} (R : A -> A -> Prop) l : StronglySorted R l -> StronglySorted (fun x z => R z x) (rev l).
Proof.
  induction 1 as [|a l S IH F]; cbn; [constructor|]. apply StronglySorted_app'; auto. rewrite Forall_forall in *. intros x Hx. apply F. apply in_rev, Hx.
Qed.
Lemma StronglySorted_impl_in {A} (R R' : A -> A -> Prop) l : (forall x z, In x l -> In z l -> R x z -> R' x z) -> StronglySorted R l -> StronglySorted R' l.
Proof.
  intros H S. induction S as [|a l S IH F]; constructor.
  - apply IH. intros x z Hx Hz. apply H; right; auto.
  - rewrite Forall_forall in *. intros x Hx. apply H; [left|right|]; auto.
Qed.

Lemma ranking_splits argsort s : np_sorting argsort ->
  exists a b, rev (argsort s) = a ++ b /\ Permutation a (nan_at s) /\ Permutation b (number_at s) /\
    StronglySorted (fun i j => forall u v, nth_error s i = Some u -> nth_error s j = Some v -> nleb v u = true) b.
Proof.
  intros H. destruct (H s) as [P S]. pose (idx := argsort s). fold idx in P, S |- *.
  assert (B : forall i, In i idx -> exists v, nth_error s i = Some v).
  { intros i Hi. pose proof (np_bound argsort s i H Hi). destruct (nth_error s i) eqn:E; eauto. apply nth_error_None in E. lia. }
  assert (S' : StronglySorted (fun i j => isnan_at s i = true -> isnan_at s j = true) idx).
  { eapply StronglySorted_impl_in; [|exact S]. intros i j Hi Hj R Ni. destruct (B i Hi) as (u & U), (B j Hj) as (v & V).
    unfold isnan_at in *. rewrite U in Ni. rewrite V. specialize (R u v U V). unfold np_leb in R. destruct (nisnan v); auto. cbn in R.
    apply leb_not_nan in R. destruct R. congruence. }
  exists (rev (filter (isnan_at s) idx)), (rev (filter (fun i => negb (isnan_at s i)) idx)). split.
  { rewrite (split_sorted (isnan_at s) idx S') at 1. apply rev_app_distr. }
  split; [|split].
  - rewrite <- Permutation_rev. apply filter_perm, P.
  - rewrite <- Permutation_rev. etransitivity; [apply filter_perm, P|]. unfold number_at. erewrite filter_eq; [reflexivity|].
    intros i Hi. apply in_seq in Hi. unfold isnan_at. destruct (nth_error s i) eqn:E; auto. apply nth_error_None in E. lia.
  - apply StronglySorted_rev. eapply StronglySorted_impl_in; [|apply StronglySorted_filter, S].
    intros i j Hi Hj R u v U V. specialize (R v u V U). unfold np_leb in R. apply filter_In in Hj. destruct Hj as [_ Nj]. unfold isnan_at in Nj.
    rewrite U in Nj. destruct (nisnan u); [discriminate|]. exact R.
Qed.

(** ** Ranking metrics depend on the ranking only *)
Lemma same_order argsort m y s s' : is_ranking m = true -> argsort s = argsort s' ->
  eval_per_query argsort m y s = eval_per_query argsort m y s'.
Proof.
  intros R E. assert (O : forall k, order argsort k s = order argsort k s') by (intros k; unfold order; rewrite E; reflexivity).
  destruct m; try discriminate; cbn [eval_per_query]; unfold precision, precision_max, recall, mrr, average_precision, ndcg_fresh, dcg, err, pfound, rbp;
    cbv zeta; rewrite O; reflexivity.
Qed.
Lemma order_kept argsort (f : N -> N) m y s : np_comparing argsort ->
  (forall a b, In a s -> In b s -> np_leb (f a) (f b) = np_leb a b) -> is_ranking m = true ->
  eval_per_query argsort m y (map f s) = eval_per_query argsort m y s.
Proof.
  intros C H R. apply same_order; auto. apply C; [apply map_length|]. intros i j a b a' b' A B A' B'.
  rewrite nth_error_map, A' in A. rewrite nth_error_map, B' in B. cbn in A, B. inversion A; inversion B; subst.
  apply H; eapply nth_error_In; eauto.
Qed.

(** ** Precision and recall at the number of NaN scores *)
Lemma nan_count s : length (nan_at s) = count (fun v => nisnan v) s.
Proof.
  unfold nan_at, count. assert (G : forall s o pre, length pre = o ->
    length (filter (fun i => match nth_error (pre ++ s) i with Some v => nisnan v | None => false end) (seq o (length s))) = length (filter (fun v => nisnan v) s)).
  { clear. induction s as [|v s IH]; intros o pre Ho; [reflexivity|]. cbn [length seq filter].
    rewrite nth_error_app2 by lia. rewrite Ho, Nat.sub_diag. cbn [nth_error].
    specialize (IH (S o) (pre ++ [v])). rewrite <- app_assoc in IH. cbn [app] in IH. rewrite app_length in IH. cbn in IH. specialize (IH ltac:(lia)).
    destruct (nisnan v); cbn [length]; rewrite IH; reflexivity. }
  apply (G s 0%nat []). reflexivity.
Qed.
Lemma nan_labels y s : length y = length s ->
  map (fun i => nth i y nzero) (nan_at s) = map fst (filter (fun p => nisnan (snd p)) (combine y s)).
Proof.
  intros HL. unfold nan_at. assert (G : forall s y o pre prey, length y = length s -> length pre = o -> length prey = o ->
    map (fun i => nth i (prey ++ y) nzero) (filter (fun i => match nth_error (pre ++ s) i with Some v => nisnan v | None => false end) (seq o (length s)))
    = map fst (filter (fun p => nisnan (snd p)) (combine y s))).
  { clear. induction s as [|v s IH]; intros [|w y] o pre prey HL Ho Ho'; cbn in HL; try discriminate; [reflexivity|]. cbn [length seq filter combine snd].
    rewrite nth_error_app2 by lia. rewrite Ho, Nat.sub_diag. cbn [nth_error].
    specialize (IH y (S o) (pre ++ [v]) (prey ++ [w])). rewrite <- !app_assoc in IH. cbn [app] in IH. rewrite !app_length in IH. cbn in IH. specialize (IH ltac:(lia) ltac:(lia) ltac:(lia)).
    destruct (nisnan v); cbn [map fst]; [|exact IH]. f_equal; [|exact IH]. rewrite app_nth2 by lia. rewrite Ho', Nat.sub_diag. reflexivity. }
  apply (G s y 0%nat [] []); auto.
Qed.
(** The documents looked at are those with a NaN score. *)
Lemma top_nans argsort y s : np_sorting argsort -> length y = length s ->
  exists l, take y (order argsort (Some (Z.of_nat (count (fun v => nisnan v) s))) s) = Ok l /\
    length (order argsort (Some (Z.of_nat (count (fun v => nisnan v) s))) s) = count (fun v => nisnan v) s /\
    Permutation l (map fst (filter (fun p => nisnan (snd p)) (combine y s))).
Proof.
  intros H HL. destruct (ranking_splits argsort s H) as (a & b & E & A & _).
  pose proof (Permutation_length A) as LA. rewrite nan_count in LA.
  assert (O : order argsort (Some (Z.of_nat (count (fun v => nisnan v) s))) s = a).
  { rewrite order_eq by (apply np_len; auto). rewrite E. unfold retrieved.
    replace (Z.of_nat (count (fun v => nisnan v) s) <? 0)%Z with false by (symmetry; apply Z.ltb_ge; lia). rewrite Nat2Z.id.
    replace (Nat.min _ (length s)) with (length a). { rewrite firstn_app, Nat.sub_diag, firstn_all. cbn. apply app_nil_r. }
    assert (length a + length b = length s)%nat. { rewrite <- app_length, <- E, rev_length. apply np_len; auto. } lia. }
  rewrite O. exists (map (fun i => nth i y nzero) a). split; [|split].
  - apply take_ok. intros i Hi. rewrite HL. apply (np_bound argsort s i H). apply in_rev. rewrite E. apply in_or_app. auto.
  - exact LA.
  - rewrite <- nan_labels by auto. apply Permutation_map, A.
Qed.
Lemma precision_nans argsort thr y s : np_sorting argsort -> length y = length s -> (0 < count (fun v => nisnan v) s)%nat ->
  eval_per_query argsort (Precision (Some (Z.of_nat (count (fun v => nisnan v) s))) thr) y s
  = Ok (ndiv (nofnat (count (fun p => nisnan (snd p) && nleb thr (fst p)) (combine y s))) (nofnat (count (fun v => nisnan v) s))).
Proof.
  intros H HL P. destruct (top_nans argsort y s H HL) as (l & T & LE & PL). cbn [eval_per_query]. unfold precision. cbv zeta. rewrite T. cbn [bind]. rewrite LE.
  replace (Nat.eqb _ 0) with false by (symmetry; apply Nat.eqb_neq; lia). f_equal. f_equal. f_equal. rewrite (filter_count_perm _ _ _ PL). unfold count.
  clear. induction (combine y s) as [|[v w] ps IH]; [reflexivity|]. cbn [filter snd fst map]. destruct (nisnan w); cbn [filter map fst andb]; [|exact IH].
  destruct (nleb thr v); cbn [length]; rewrite IH; reflexivity.
Qed.

(** ** RMSE and MSE *)
Lemma nsum_nan (l : list N) : existsb nisnan l = true -> nisnan (nsum l) = true.
Proof.
  unfold nsum. assert (G : forall l (a : N), nisnan a = true \/ existsb nisnan l = true -> nisnan (fold_left nadd l a) = true).
  { clear - HN. induction l as [|v l IH]; intros a [A|A]; cbn in *; auto; try discriminate.
    - apply IH. left. apply (hn_arith _ HN). auto.
    - apply orb_prop in A as [A|A]; apply IH; auto. left. apply (hn_arith _ HN). auto. }
  intros H. apply G. auto.
Qed.
Lemma sq_nan (u v : N) : nisnan u = true \/ nisnan v = true -> nisnan (sq (nsub u v)) = true.
Proof. intros H. apply (hn_arith _ HN). left. apply (hn_arith _ HN). auto. Qed.
Lemma mse_nan argsort y s : length y = length s -> existsb nisnan y = true \/ existsb nisnan s = true ->
  exists v, mse_pq argsort None y s = Ok v /\ nisnan v = true.
Proof.
  intros HL H. unfold mse_pq. rewrite HL, Nat.eqb_refl. cbn [negb]. eexists. split; [reflexivity|]. apply nsum_nan.
  revert s HL H. induction y as [|u y IH]; intros [|v s] HL H; cbn in HL; try discriminate; [destruct H; discriminate|].
  cbn [combine map existsb fst snd]. apply orb_true_iff. cbn [existsb] in H. rewrite !orb_true_iff in H.
  destruct (nisnan u) eqn:U; [left; apply sq_nan; auto|]. destruct (nisnan v) eqn:V; [left; apply sq_nan; auto|].
  right. apply IH; [lia|]. destruct H as [[H|H]|[H|H]]; try discriminate; auto.
Qed.
Lemma rmse_nan argsort y s : length y = length s -> existsb nisnan y = true \/ existsb nisnan s = true ->
  exists v, eval_per_query argsort (RMSE None) y s = Ok v /\ nisnan v = true.
Proof.
  intros HL H. destruct (mse_nan argsort y s HL H) as (v & E & V). cbn [eval_per_query]. unfold rmse_pq. rewrite E. cbn [bind].
  eexists. split; [reflexivity|]. apply (hn_fun _ HN); auto.
Qed.

(** ** NDCG with a NaN label *)
Lemma first_is_nan argsort y : np_sorting argsort -> existsb nisnan y = true ->
  exists i rest v, rev (argsort y) = i :: rest /\ nth_error y i = Some v /\ nisnan v = true.
Proof.
  intros H E. destruct (ranking_splits argsort y H) as (a & b & R & A & _).
  pose proof (Permutation_length A) as LA. rewrite nan_count in LA. destruct a as [|i a].
  - exfalso. cbn in LA. unfold count in LA. apply existsb_exists in E. destruct E as (v & Hv & Nv).
    assert (In v (filter (fun v => nisnan v) y)) by (apply filter_In; auto). destruct (filter (fun v => nisnan v) y); [contradiction|discriminate].
  - assert (I : In i (nan_at y)) by (eapply Permutation_in; [exact A|left; reflexivity]).
    unfold nan_at in I. apply filter_In in I. destruct I as [_ I]. destruct (nth_error y i) as [v|] eqn:V; [|discriminate].
    exists i, (a ++ b), v. repeat split; auto.
Qed.
Lemma gain_nan g (v : N) : nisnan v = true -> nisnan (gain g v) = true.
Proof.
  intros V. destruct g; cbn; auto; apply (hn_arith _ HN); left; apply (hn_fun _ HN); auto.
Qed.
Lemma dcg_nan argsort g cutoff y : np_sorting argsort -> g <> OtherImpl -> existsb nisnan y = true -> looks_at_some cutoff (length y) ->
  exists i, dcg argsort g cutoff y y = Ok i /\ nisnan i = true.
Proof.
  intros H G E L. destruct (first_is_nan argsort y H E) as (i & rest & v & R & V & NV).
  assert (T : take y (order argsort cutoff y) = Ok (map (fun i => nth i y nzero) (order argsort cutoff y))).
  { apply take_ok. intros j Hj. rewrite order_eq in Hj by (apply np_len; auto). apply In_firstn in Hj. apply in_rev in Hj. eapply np_bound; eauto. }
  assert (O : exists rest', order argsort cutoff y = i :: rest').
  { rewrite order_eq by (apply np_len; auto). rewrite R. unfold looks_at_some in L. destruct (retrieved cutoff (length y)); [lia|]. cbn. eauto. }
  destruct O as (rest' & O). unfold dcg. rewrite T, O. cbn [map bind].
  exists (nsum (map (fun p => ndiv (gain g (snd p)) (discount (fst p))) (combine (seq 0 (length (nth i y nzero :: map (fun i => nth i y nzero) rest'))) (nth i y nzero :: map (fun i => nth i y nzero) rest')))).
  split; [destruct g; try reflexivity; contradiction|]. apply nsum_nan. cbn [length seq combine map existsb snd fst].
  apply orb_true_iff. left. apply (hn_arith _ HN). left. apply gain_nan. rewrite (nth_error_nth _ _ _ V). exact NV.
Qed.
Lemma dcg_ok argsort g cutoff y s : np_sorting argsort -> g <> OtherImpl -> length y = length s ->
  exists v, dcg argsort g cutoff y s = Ok v.
Proof.
  intros H G HL.
  assert (T : take y (order argsort cutoff s) = Ok (map (fun i => nth i y nzero) (order argsort cutoff s))).
  { apply take_ok. intros j Hj. rewrite order_eq in Hj by (apply np_len; auto). apply In_firstn in Hj. apply in_rev in Hj. rewrite HL. eapply np_bound; eauto. }
  unfold dcg. rewrite T. destruct g; cbn [bind]; eauto. contradiction.
Qed.
Lemma ndcg_nan argsort norel g cutoff y s : np_sorting argsort -> g <> OtherImpl -> length y = length s ->
  existsb nisnan y = true -> looks_at_some cutoff (length y) ->
  (exists v, eval_per_query argsort (NDCGfresh norel g cutoff) y s = Ok v /\ nisnan v = true) /\
  (exists v, ndcg32 argsort norel g cutoff y s = Ok v /\ nisnan v = true).
Proof.
  intros H G HL E L. destruct (dcg_nan argsort g cutoff y H G E L) as (i & Ei & Ni). destruct (dcg_ok argsort g cutoff y s H G HL) as (v & Ev).
  cbn [eval_per_query]. unfold ndcg_fresh, ndcg32, ndcg_of. rewrite Ei, Ev. cbn [bind].
  pose proof (hn_fun _ HN i Ni) as (_ & _ & N32).
  destruct (hn_compare _ HN i nzero (or_introl Ni)) as [_ ->]. destruct (hn_compare _ HN (nf32 i) nzero (or_introl N32)) as [_ ->]. cbn [negb].
  split; eexists; (split; [reflexivity|]); apply (hn_arith _ HN); auto.
Qed.

(** ** Averages over the queries *)
Lemma mapM_fail_iff {A B} (f g : A -> res B) l : (forall x, In x l -> f x = g x) -> mapM f l = mapM g l.
Proof. apply mapM_ext. Qed.
Lemma mean_skips (f : list N -> list N -> res N) nf X y ids (d : dataset N) s X' y' (d' : dataset N) s' q :
  built nf X y ids d -> built nf X' y' ids d' -> length s = length ids -> length s' = length ids ->
  (forall p, p <> q -> select p ids y = select p ids y' /\ select p ids s = select p ids s') ->
  (exists v, f (select q ids y) (select q ids s) = Ok v /\ nisnan v = true) ->
  (exists v, f (select q ids y') (select q ids s') = Ok v /\ nisnan v = true) ->
  (do r <- metric_eval f d s; Ok (fst r)) = (do r <- metric_eval f d' s'; Ok (fst r)).
Proof.
  intros B B' L L' Same (v & V & NV) (v' & V' & NV'). rewrite (C16_lemma f _ _ _ _ _ _ B L), (C16_lemma f _ _ _ _ _ _ B' L').
  assert (Q : ds_qids d = ds_qids d').
  { destruct B as (_ & _ & _ & I), B' as (_ & _ & _ & I'). destruct (ds_init_inv _ _ _ _ I) as [_ E], (ds_init_inv _ _ _ _ I') as [_ E']. subst d d'. reflexivity. }
  rewrite <- Q. generalize (ds_qids d). intros qs.
  assert (G : forall qs, match mapM (fun q => f (select q ids y) (select q ids s)) qs, mapM (fun q => f (select q ids y') (select q ids s')) qs with
     | Ok a, Ok b => filter (fun x => negb (nisnan x)) (map nf32 a) = filter (fun x => negb (nisnan x)) (map nf32 b)
     | Err e, Err e' => e = e' | _, _ => False end).
  { clear - V V' NV NV' Same HN. induction qs as [|p qs IH]; cbn [mapM]; [reflexivity|].
    destruct (Z.eq_dec p q) as [->|Ne].
    - rewrite V, V'. cbn [bind]. destruct (mapM (fun q => f (select q ids y) (select q ids s)) qs), (mapM (fun q => f (select q ids y') (select q ids s')) qs); cbn [bind]; auto; try contradiction.
      cbn [map filter]. destruct (hn_fun _ HN _ NV) as (_ & _ & ->), (hn_fun _ HN _ NV') as (_ & _ & ->). exact IH.
    - destruct (Same p Ne) as [-> ->]. destruct (f (select p ids y') (select p ids s')); cbn [bind]; [|reflexivity].
      destruct (mapM (fun q => f (select q ids y) (select q ids s)) qs), (mapM (fun q => f (select q ids y') (select q ids s')) qs); cbn [bind]; auto; try contradiction.
      cbn [map filter]. rewrite IH. reflexivity. }
  specialize (G qs). destruct (mapM (fun q => f (select q ids y) (select q ids s)) qs), (mapM (fun q => f (select q ids y') (select q ids s')) qs); cbn [bind]; try contradiction.
  - unfold nanmean. cbn [fst]. rewrite G. reflexivity.
  - congruence.
Qed.
End Nan.

(** ** float32 and float64 *)
Lemma leb_fin s m e s' m' e' : SFleb (S754_finite s m e) (S754_finite s' m' e') = true <->
  match s, s' with
  | true, false => True
  | false, true => False
  | false, false => (e < e' \/ e = e' /\ Zpos m <= Zpos m')%Z
  | true, true => (e' < e \/ e = e' /\ Zpos m' <= Zpos m)%Z
  end.
Proof.
  unfold SFleb. cbn. destruct s, s'; try (split; auto; discriminate).
  - destruct (Z.compare_spec e e') as [E|E|E]; [|split; intros; [discriminate|lia]|split; intros; [lia|reflexivity]].
    change (Pos.compare_cont Eq m m') with (Pos.compare m m'). destruct (Pos.compare_spec m m'); cbn; split; intros; try discriminate; try lia; reflexivity.
  - destruct (Z.compare_spec e e') as [E|E|E]; [|split; intros; [lia|reflexivity]|split; intros; [discriminate|lia]].
    change (Pos.compare_cont Eq m m') with (Pos.compare m m'). destruct (Pos.compare_spec m m'); cbn; split; intros; try discriminate; try lia; reflexivity.
Qed.
Lemma cmp_total a b : is_nan a = false -> is_nan b = false -> SFleb a b = true \/ SFleb b a = true.
Proof.
  intros A B. destruct a as [s|s| |s m e], b as [s'|s'| |s' m' e']; try discriminate.
  1-8: unfold SFleb; cbn; try destruct s; try destruct s'; auto.
  rewrite !leb_fin. destruct s, s'; auto; lia.
Qed.
Lemma cmp_trans a b c : SFleb a b = true -> SFleb b c = true -> SFleb a c = true.
Proof.
  destruct a as [s|s| |s m e], b as [s'|s'| |s' m' e'], c as [t|t| |t n f]; try (rewrite !leb_fin; destruct s, s', t; try lia; auto; fail).
  all: unfold SFleb; cbn; try destruct s; try destruct s'; try destruct t; auto; try discriminate.
Qed.
Theorem ieee_has_nans prec emax : has_nans (IEEE prec emax).
Proof.
  constructor.
  - intros a b [H|H]; [destruct a; try discriminate H|destruct b; try discriminate H; destruct a]; split; reflexivity.
  - exact cmp_total.
  - exact cmp_trans.
  - intros a b [H|H]; [destruct a; try discriminate H; destruct b|destruct b; try discriminate H; destruct a]; repeat split; reflexivity.
  - intros a H. destruct a; try discriminate H. repeat split; reflexivity.
Qed.

(** NaN ranks like +inf if no score is +inf. *)
Lemma leb_inf (a : IEEE32) : is_nan a = false -> a <> S754_infinity false -> SFleb a (S754_infinity false) = true /\ SFleb (S754_infinity false) a = false.
Proof. intros A B. destruct a as [s|s| |s m e]; try discriminate; try destruct s; try (split; reflexivity). contradiction. Qed.
Theorem nan_ranks_like_infinity argsort (m : metric IEEE32) y s : np_comparing argsort -> is_ranking m = true -> ~ In (S754_infinity false) s ->
  eval_per_query argsort m y (map nan_to_inf s) = eval_per_query argsort m y s.
Proof.
  intros C R I. apply order_kept; auto. intros a b A B. unfold np_leb, nan_to_inf. cbn [nisnan nleb IEEE32 IEEE].
  destruct (is_nan a) eqn:Na, (is_nan b) eqn:Nb; cbn [is_nan orb]; auto.
  - destruct a; try discriminate Na. destruct (leb_inf b Nb) as [_ ->]; [intros ->; auto|]. rewrite nan_leb, Nb. reflexivity.
  - apply leb_inf; auto. intros ->; auto.
  - rewrite Nb. reflexivity.
Qed.

(** A document with a NaN part of its score comes before every document with a number. *)
Theorem nan_part_first argsort (ws : list IEEE32) ts rows i j : np_sorting argsort ->
  (exists row, nth_error rows i = Some row /\ In (S754_nan : IEEE32) (tree_scores ws ts row)) ->
  (exists row, nth_error rows j = Some row /\ ensemble_score ws ts row <> S754_nan) ->
  exists a b, rev (argsort (map (ensemble_score ws ts) rows)) = a ++ b /\ In i a /\ In j b.
Proof.
  intros H (row & Ri & P) (row' & Rj & Q).
  destruct (ranking_splits (N:=IEEE32) (ieee_has_nans 24 128) argsort (map (ensemble_score ws ts) rows) H) as (a & b & E & A & B & _).
  exists a, b. split; [exact E|].
  assert (Si : nth_error (map (ensemble_score ws ts) rows) i = Some S754_nan) by (rewrite nth_error_map, Ri; cbn [option_map]; rewrite (nan_part _ _ _ P); reflexivity).
  assert (Sj : nth_error (map (ensemble_score ws ts) rows) j = Some (ensemble_score ws ts row')) by (rewrite nth_error_map, Rj; reflexivity).
  split.
  - eapply Permutation_in; [symmetry; exact A|]. apply filter_In. rewrite Si. split; [|reflexivity]. apply in_seq. split; [lia|]. apply nth_error_Some. congruence.
  - eapply Permutation_in; [symmetry; exact B|]. apply filter_In. rewrite Sj. split.
    + apply in_seq. split; [lia|]. apply nth_error_Some. congruence.
    + cbn [nisnan IEEE32 IEEE]. destruct (ensemble_score ws ts row'); try reflexivity. contradiction.
Qed.

(** If all the scores are NaN, any order is sorted. *)
Lemma all_nan {N : num} (s : list N) idx : Forall (fun v => nisnan v = true) s -> Permutation idx (seq 0 (length s)) -> np_sorts s idx.
Proof.
  intros F P. split; [exact P|]. clear P. induction idx as [|i idx IH]; constructor; auto. apply Forall_forall. intros j _ a b _ B.
  unfold np_leb. rewrite Forall_forall in F. rewrite (F b) by (eapply nth_error_In; eauto). reflexivity.
Qed.
(** Scores without NaN: NumPy's order is the order of the numbers. *)
Lemma no_nan {N : num} (s : list N) idx : Forall (fun v => nisnan v = false) s -> np_sorts s idx <-> sorts s idx.
Proof.
  intros F. rewrite Forall_forall in F. assert (E : forall i j, (forall a b, nth_error s i = Some a -> nth_error s j = Some b -> np_leb a b = true) <-> (forall a b, nth_error s i = Some a -> nth_error s j = Some b -> nleb a b = true)).
  { intros i j. split; intros H a b A B; specialize (H a b A B); unfold np_leb in *; rewrite (F b) in * by (eapply nth_error_In; eauto); exact H. }
  unfold np_sorts, sorts. split; intros [P S]; (split; [exact P|]); clear P; induction S as [|i l S IH G]; constructor; auto; rewrite Forall_forall in *; intros j Hj; apply E; apply G; auto.
Qed.

(** The NDCG object after any history. *)
Lemma np_permutes {N : num} (argsort : list N -> list nat) : np_sorting argsort -> permuting argsort.
Proof. intros H s. apply H. Qed.
Theorem ndcg_object_nan {N : num} (HN : has_nans N) (argsort : list N -> list nat) : np_sorting argsort ->
  forall (digest : list (list N) -> list N -> list Z -> Z) norel g cutoff (h : list call) nf X y ids (o : obj (N:=N)) (s : list N) avg v i q,
  built nf X y ids (snd o) -> length s = length ids -> Forall (fun k => made (snd k)) (evaluated h) ->
  Forall (fun k => compatible digest k o) (evaluated h) -> g <> OtherImpl ->
  nth_error (ds_qids (snd o)) i = Some q -> existsb nisnan (select q ids y) = true -> looks_at_some cutoff (length (select q ids y)) ->
  snd (ndcg_eval argsort digest norel g cutoff (after argsort digest norel g cutoff h) o s) = Ok (avg, v) ->
  exists w, nth_error v i = Some w /\ nisnan w = true.
Proof.
  intros H digest norel g cutoff h nf X y ids o s avg v i q B L M C G Q E LK R.
  assert (Mo : made (snd o)) by (destruct B as (_ & _ & _ & I); exists nf, X, y, ids; exact I).
  destruct (C25_eval_lemma argsort (np_permutes _ H) digest norel g cutoff h o s M Mo C) as [EQ _]. rewrite EQ in R.
  apply (C16_iff _ _ _ _ _ _ _ _ _ B L) in R. destruct R as (_ & R & _). destruct (R i q Q) as (x & Ex & V).
  exists (nf32 x). split; [exact V|].
  destruct (ndcg_nan HN argsort norel g cutoff (select q ids y) (select q ids s) H G) as [_ (w & Ew & Nw)]; auto.
  - apply select_length; [apply B|exact L].
  - rewrite Ew in Ex. inversion Ex; subst. apply (hn_fun _ HN). exact Nw.
Qed.
