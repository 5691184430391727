(** DCG, NDCG, ERR, Pfound, RBP, RMSE over the reals. *)
From Coq Require Import List ZArith Reals Lia Lra Bool Permutation Sorted.
From Verif Require Import Base Lists Num M_Dataset M_Metrics S_Metrics L_Metrics L_MetricsR.
Import ListNotations.
Local Open Scope R_scope.

Lemma Rexp2_Rpower v : Rexp2 v = Rpower 2 v.
Proof. reflexivity. Qed.

Lemma Rpower2_pos v : 0 < Rpower 2 v.
Proof. apply exp_pos. Qed.
Lemma ln2_pos : 0 < ln 2.
Proof. rewrite <- ln_1. apply ln_increasing; lra. Qed.
Lemma Rpower2_le a b : a <= b -> Rpower 2 a <= Rpower 2 b.
Proof.
  intros [H| ->]; [left|lra]. unfold Rpower. apply exp_increasing. apply Rmult_lt_compat_r; auto. apply ln2_pos.
Qed.
Lemma Rpower2_lt a b : a < b -> Rpower 2 a < Rpower 2 b.
Proof. intros H. unfold Rpower. apply exp_increasing. apply Rmult_lt_compat_r; auto. apply ln2_pos. Qed.
Lemma Rpower2_0 : Rpower 2 0 = 1.
Proof. unfold Rpower. rewrite Rmult_0_l. apply exp_0. Qed.

Lemma gainR_mono g a b : a <= b -> gainR g a <= gainR g b.
Proof. intros H. destruct g; cbn; auto; pose proof (Rpower2_le a b H); lra. Qed.
Lemma gainR_nonneg g a : 0 <= a -> 0 <= gainR g a.
Proof. intros H. destruct g; cbn; auto; pose proof (Rpower2_le 0 a H); rewrite Rpower2_0 in *; lra. Qed.
Lemma gainR_pos g a : 0 < a -> 0 < gainR g a.
Proof. intros H. destruct g; cbn; auto; pose proof (Rpower2_lt 0 a H); rewrite Rpower2_0 in *; lra. Qed.
Lemma gainR_0 g : gainR g 0 = 0.
Proof. destruct g; cbn; auto; rewrite Rpower2_0; lra. Qed.

Ltac rlia := change (car RE) with R in *; lia.

(** Weights: non-increasing, positive up to K. *)
Definition wgt (i : nat) : R := / (ln (INR (i + 2)) / ln 2).

Lemma disc_pos i : 0 < ln (INR (i + 2)) / ln 2.
Proof.
  apply Rmult_lt_0_compat; [|apply Rinv_0_lt_compat, ln2_pos].
  rewrite <- ln_1. apply ln_increasing; [lra|]. change 1 with (INR 1). apply lt_INR. lia.
Qed.
Lemma wgt_pos i : 0 < wgt i.
Proof. apply Rinv_0_lt_compat, disc_pos. Qed.
Lemma wgt_dec i : wgt (S i) <= wgt i.
Proof.
  unfold wgt. apply Rinv_le_contravar; [apply disc_pos|]. apply Rmult_le_compat_r.
  - left. apply Rinv_0_lt_compat, ln2_pos.
  - left. apply ln_increasing; [apply INR_pos; lia|]. apply lt_INR. lia.
Qed.

Section Rearr.
Variable g : R -> R.
Variable W : nat -> R.
Hypothesis g_mono : forall a b, a <= b -> g a <= g b.
Hypothesis W_dec : forall i, W (S i) <= W i.

Fixpoint dot (k : nat) (l : list R) : R :=
  match l with [] => 0 | x :: l' => W k * g x + dot (S k) l' end.

Definition geb (a b : R) : bool := Rleb b a.

Lemma dot_insert x l k : dot k (x :: l) <= dot k (insert geb x l).
Proof.
  revert k. induction l as [|v l IH]; intros k; [cbn; lra|]. cbn [insert].
  destruct (geb x v) eqn:E; [lra|]. unfold geb in E. apply Rleb_false in E.
  specialize (IH (S k)). cbn [dot] in *.
  assert (0 <= (W k - W (S k)) * (g v - g x)).
  { apply Rmult_le_pos; [specialize (W_dec k); lra|]. specialize (g_mono x v). lra. }
  lra.
Qed.

Lemma dot_isort l k : dot k l <= dot k (isort geb l).
Proof.
  revert k. induction l as [|x l IH]; intros k; [cbn; lra|]. cbn [isort].
  eapply Rle_trans; [|apply dot_insert]. cbn [dot]. specialize (IH (S k)). lra.
Qed.

Lemma dot_snoc l x k : dot k (l ++ [x]) = dot k l + W (k + length l) * g x.
Proof.
  revert k. induction l as [|v l IH]; intros k; cbn.
  - rewrite Nat.add_0_r. lra.
  - rewrite IH. replace (S k + length l)%nat with (k + S (length l))%nat by lia. lra.
Qed.

Lemma dot_Rsum l : dot 0 l = Rsum (fun i => W i * g (nth i l 0)) (length l).
Proof.
  induction l as [|x l IH] using rev_ind; [reflexivity|].
  rewrite dot_snoc, app_length. cbn [length]. rewrite Nat.add_1_r. cbn [Rsum].
  rewrite IH. cbn [Nat.add]. rewrite app_nth2, Nat.sub_diag by lia. cbn [nth]. f_equal.
  apply Rsum_ext. intros i Hi. rewrite app_nth1; auto.
Qed.
End Rearr.

Lemma sorted_desc_unique (l l' : list R) :
  StronglySorted (fun a b => b <= a) l' -> Permutation l l' -> isort geb l = l'.
Proof.
  intros HS HP. eapply (@StronglySorted_perm_unique _ (fun a b => b <= a)).
  - intros. lra.
  - assert (StronglySorted (fun a b => geb a b = true) (isort geb l)) as S.
    { apply isort_sorted; unfold geb; intros; rewrite ?Rleb_true in *; lra. }
    induction S; constructor; auto. rewrite Forall_forall in *. intros v Hv. apply Rleb_true. apply H; auto.
  - auto.
  - rewrite isort_perm. auto.
Qed.

(** Truncated rearrangement inequality. *)
Lemma rearrange g (w : nat -> R) (l l' : list R) K :
  (forall a b, a <= b -> g a <= g b) -> (forall i, w (S i) <= w i) -> (forall i, 0 <= w i) ->
  StronglySorted (fun a b => b <= a) l' -> Permutation l l' -> (K <= length l)%nat ->
  Rsum (fun i => w i * g (nth i l 0)) K <= Rsum (fun i => w i * g (nth i l' 0)) K.
Proof.
  intros Hg Hd Hp HS HP HK. pose proof (Permutation_length HP) as HL.
  set (W := fun i => if (i <? K)%nat then w i else 0).
  assert (WD : forall i, W (S i) <= W i).
  { intros i. unfold W. specialize (Hp i). specialize (Hd i). destruct (Nat.ltb_spec (S i) K), (Nat.ltb_spec i K); try lia; lra. }
  assert (E : forall v, (K <= length v)%nat -> dot g W 0 v = Rsum (fun i => w i * g (nth i v 0)) K).
  { intros v Hv. rewrite dot_Rsum. clear - Hv. 
    assert (G : forall m, (K <= m)%nat -> Rsum (fun i => W i * g (nth i v 0)) m = Rsum (fun i => w i * g (nth i v 0)) K).
    { induction 1.
      - apply Rsum_ext. intros i Hi. unfold W. destruct (Nat.ltb_spec i K); [auto|lia].
      - cbn. rewrite IHle. unfold W. destruct (Nat.ltb_spec m K); [lia|lra]. }
    apply G; auto. }
  rewrite <- !E by lia. rewrite <- (sorted_desc_unique l l') by auto. apply dot_isort; auto.
Qed.

Section M2.
Variable argsort : list RE -> list nat.
Hypothesis Hs : sorting argsort.
Implicit Types (y s : list RE) (norel thr pa p : RE).

Lemma dcg_value g cutoff y s : length y = length s -> g <> OtherImpl ->
  eval_per_query argsort (DCG g cutoff) y s
  = Ok (dcgR g (lab argsort y s) (retrieved cutoff (length s))).
Proof.
  intros HL Hg. rewrite eval_top by auto. cbn [cutoff_of top_value].
  assert (E : @nsum RE (map (fun q => ndiv (gain g (snd q)) (discount (fst q)))
             (combine (seq 0 (length (firstn (retrieved cutoff (length s)) (ranked argsort y s))))
               (firstn (retrieved cutoff (length s)) (ranked argsort y s))))
           = dcgR g (lab argsort y s) (retrieved cutoff (length s))).
  { rewrite (nsum_prefix (fun i v => ndiv (gain g v) (discount i))) by (apply K_le; auto).
    unfold dcgR. apply Rsum_ext. intros i _. unfold lab, discount. rewrite nofnat_R. destruct g; reflexivity. }
  destruct g; [..|congruence]; f_equal; exact E.
Qed.

Lemma ranked_sortedR y : StronglySorted (fun a b => b <= a) (ranked argsort y y : list R).
Proof.
  pose proof (ranked_sorted argsort y Hs) as S. induction S; constructor; auto.
  rewrite Forall_forall in *. intros v Hv. apply Rleb_true. apply H. auto.
Qed.

Lemma lab_In y s i : length y = length s -> (i < length s)%nat -> In (lab argsort y s i) y.
Proof.
  intros HL Hi. unfold lab. eapply Permutation_in; [apply (ranked_perm argsort y s Hs HL)|].
  apply nth_In. rewrite ranked_length; auto.
Qed.

Lemma ranked_permR y s : length y = length s ->
  @Permutation R (ranked argsort y s) (ranked argsort y y).
Proof.
  intros HL. pose proof (ranked_perm argsort y s Hs HL) as A.
  pose proof (ranked_perm argsort y y Hs eq_refl) as B.
  change (@Permutation (car RE) (ranked argsort y s) (ranked argsort y y)).
  rewrite A. symmetry. exact B.
Qed.

(** *** C23 *)
Lemma dcg_le g cutoff y s : length y = length s ->
  dcgR g (lab argsort y s) (retrieved cutoff (length s))
  <= dcgR g (lab argsort y y) (retrieved cutoff (length y)).
Proof.
  intros HL. rewrite HL. unfold dcgR.
  assert (E : forall (l : nat -> R) K, Rsum (fun i => gainR g (l i) / (ln (INR (i + 2)) / ln 2)) K
                = Rsum (fun i => wgt i * gainR g (l i)) K).
  { intros. apply Rsum_ext. intros. unfold Rdiv, wgt. apply Rmult_comm. }
  rewrite !E. apply rearrange.
  - apply gainR_mono.
  - apply wgt_dec.
  - intros; left; apply wgt_pos.
  - apply ranked_sortedR.
  - apply ranked_permR; auto.
  - apply K_le; auto.
Qed.

Lemma C23_lemma g cutoff y s : length y = length s -> g <> OtherImpl ->
  exists v v', eval_per_query argsort (DCG g cutoff) y s = Ok v /\
    eval_per_query argsort (DCG g cutoff) y y = Ok v' /\
    v = dcgR g (lab argsort y s) (retrieved cutoff (length s)) /\ v <= v'.
Proof.
  intros HL Hg. do 2 eexists. split; [apply dcg_value; auto|]. split; [apply dcg_value; auto|].
  split; auto. apply dcg_le; auto.
Qed.

(** *** C24 *)
Lemma dcgR_nonneg g (l : nat -> R) K : (forall i, (i < K)%nat -> 0 <= l i) -> 0 <= dcgR g l K.
Proof.
  intros H. apply Rsum_nonneg. intros i Hi. apply Rmult_le_pos; [apply gainR_nonneg; auto|].
  left. apply Rinv_0_lt_compat, disc_pos.
Qed.

Lemma ndcg_value norel g cutoff y s : length y = length s -> g <> OtherImpl ->
  eval_per_query argsort (NDCGfresh norel g cutoff) y s
  = Ok (if Reqb (dcgR g (lab argsort y y) (retrieved cutoff (length y))) 0 then norel
        else dcgR g (lab argsort y s) (retrieved cutoff (length s))
             / dcgR g (lab argsort y y) (retrieved cutoff (length y))).
Proof.
  intros HL Hg. cbn [eval_per_query]. unfold ndcg_fresh.
  pose proof (dcg_value g cutoff y s HL Hg) as E1. pose proof (dcg_value g cutoff y y eq_refl Hg) as E2.
  cbn [eval_per_query] in E1, E2. rewrite E1, E2. cbn [bind]. unfold ndcg_of.
  change (neqb (dcgR g (lab argsort y y) (retrieved cutoff (length y)) : RE) nzero)
    with (Reqb (dcgR g (lab argsort y y) (retrieved cutoff (length y))) 0).
  destruct (Reqb _ 0); reflexivity.
Qed.

(** The best label comes first in the ideal ranking. *)
Lemma ideal_first y v : In v y -> v <= lab argsort y y 0.
Proof.
  intros Hv. unfold lab. pose proof (ranked_sortedR y) as S.
  apply (Permutation_in _ (Permutation_sym (ranked_perm argsort y y Hs eq_refl))) in Hv.
  destruct (ranked argsort y y) as [|a l]; [destruct Hv|]. cbn. inversion S; subst.
  destruct Hv as [<-|Hv]; [lra|]. rewrite Forall_forall in H2. apply H2. auto.
Qed.

Lemma idcg_pos g K y v : Forall (fun x => 0 <= x) y -> In v y -> 0 < v -> (0 < K)%nat -> (K <= length y)%nat ->
  0 < dcgR g (lab argsort y y) K.
Proof.
  intros Hy Hv Hp HK HL. unfold dcgR. destruct K as [|K]; [lia|]. clear HK.
  assert (N : forall i, (i < length y)%nat -> 0 <= lab argsort y y i).
  { intros i Hi. rewrite Forall_forall in Hy. apply Hy. apply lab_In; auto. }
  assert (P0 : 0 < gainR g (lab argsort y y 0) / (ln (INR (0 + 2)) / ln 2)).
  { apply Rmult_lt_0_compat; [|apply Rinv_0_lt_compat, disc_pos]. apply gainR_pos.
    pose proof (ideal_first y v Hv). rlra. }
  eapply Rlt_le_trans; [|apply Rsum_mono_n with (n := 1%nat); [|lia]].
  - cbn [Rsum]. rlra.
  - intros i Hi. apply Rmult_le_pos; [apply gainR_nonneg, N; lia|]. left. apply Rinv_0_lt_compat, disc_pos.
Qed.

Lemma idcg_zero g K (l : nat -> R) : (forall i, (i < K)%nat -> l i = 0) -> dcgR g l K = 0.
Proof.
  intros H. unfold dcgR. rewrite (Rsum_ext _ (fun _ => 0)); [apply Rsum_zero|].
  intros i Hi. rewrite H, gainR_0 by auto. unfold Rdiv. apply Rmult_0_l.
Qed.

Lemma C24_lemma norel g cutoff y s : length y = length s -> g <> OtherImpl -> Forall (fun v => 0 <= v) y ->
  let K := retrieved cutoff (length s) in
  (K = 0%nat \/ Forall (fun v => v = 0) y ->
     eval_per_query argsort (NDCGfresh norel g cutoff) y s = Ok norel) /\
  ((0 < K)%nat -> Exists (fun v => 0 < v) y ->
     exists v, eval_per_query argsort (NDCGfresh norel g cutoff) y s = Ok v /\
       v = dcgR g (lab argsort y s) K / dcgR g (lab argsort y y) K /\
       0 < dcgR g (lab argsort y y) K /\
       0 <= v <= 1 /\
       (StronglySorted (fun a b => b <= a) (ranked argsort y s : list R) -> v = 1)).
Proof.
  intros HL Hg Hy K. rewrite ndcg_value by auto. rewrite HL. fold K.
  assert (KL : (K <= length y)%nat) by (unfold K; rewrite HL; apply retrieved_bound).
  assert (N : forall s i, length y = length s -> (i < K)%nat -> 0 <= lab argsort y s i).
  { intros s' i Hs' Hi. rewrite Forall_forall in Hy. apply Hy. apply lab_In; auto. rlra || lia. }
  split.
  - intros H. assert (E : dcgR g (lab argsort y y) K = 0).
    { apply idcg_zero. intros i Hi. destruct H as [H|H]; [lia|]. rewrite Forall_forall in H. apply H. apply lab_In; auto. lia. }
    assert (Reqb (dcgR g (lab argsort y y) K) 0 = true) as -> by (apply Reqb_true; auto). reflexivity.
  - intros HK HE. apply Exists_exists in HE. destruct HE as (v & Hv & Hp).
    pose proof (idcg_pos g K y v Hy Hv Hp HK KL) as IP.
    assert (Reqb (dcgR g (lab argsort y y) K) 0 = false) as -> by (apply Reqb_false; lra).
    eexists. split; [reflexivity|]. split; [reflexivity|]. split; auto.
    pose proof (dcg_le g cutoff y s HL) as LE. rewrite HL in LE. fold K in LE.
    assert (D0 : 0 <= dcgR g (lab argsort y s) K) by (apply dcgR_nonneg; intros; apply N; auto).
    split.
    + split.
      * apply Rmult_le_pos; auto. left. apply Rinv_0_lt_compat; auto.
      * apply Rmult_le_reg_r with (dcgR g (lab argsort y y) K); auto.
        unfold Rdiv. rewrite Rmult_assoc, Rinv_l by lra. lra.
    + intros SS.
      assert (E : ranked argsort y s = ranked argsort y y).
      { eapply (@StronglySorted_perm_unique _ (fun a b : R => b <= a)); [intros; lra|exact SS|apply ranked_sortedR|].
        apply ranked_permR; auto. }
      assert (lab argsort y s = lab argsort y y) as -> by (unfold lab; rewrite E; reflexivity).
      unfold Rdiv. apply Rinv_r. lra.
Qed.

(** *** C26, C27 *)
Lemma satisfy_bounds m v : 0 <= v <= m -> 0 <= satisfy m v < 1.
Proof.
  intros [H1 H2]. unfold satisfy. pose proof (Rpower2_le 0 v H1). rewrite Rpower2_0 in *.
  pose proof (Rpower2_le v m H2). pose proof (Rpower2_pos m). split.
  - apply Rmult_le_pos; [lra|]. left. apply Rinv_0_lt_compat; auto.
  - apply Rmult_lt_reg_r with (Rpower 2 m); auto. unfold Rdiv. rewrite Rmult_assoc, Rinv_l by lra. lra.
Qed.

Lemma err_fold m (l : list RE) K : (K <= length l)%nat ->
  fold_left (err_step m) (firstn K l) (0%nat, (1%R : RE), (0%R : RE))
  = (K, Rprod (fun i => 1 - satisfy m (nth i l 0)) K,
     Rsum (fun i => Rprod (fun j => 1 - satisfy m (nth j l 0)) i * (satisfy m (nth i l 0) / INR (i + 1))) K).
Proof.
  induction K as [|K IH]; intros H; [reflexivity|].
  rewrite (firstn_S_nth l K 0) by lia. rewrite fold_left_app, IH by lia. cbn [fold_left].
  unfold err_step. rewrite nofnat_R. cbn [Rsum Rprod]. rewrite (plus_INR K 1). reflexivity.
Qed.

Lemma pfound_fold pa m (l : list RE) K : (K <= length l)%nat ->
  fold_left (pfound_step pa m) (firstn K l) (0%nat, (1%R : RE), (0%R : RE))
  = (K, Rprod (fun i => 1 - satisfy m (nth i l 0)) K,
     Rsum (fun i => Rprod (fun j => 1 - satisfy m (nth j l 0)) i * satisfy m (nth i l 0) * pa ^ i) K).
Proof.
  induction K as [|K IH]; intros H; [reflexivity|].
  rewrite (firstn_S_nth l K 0) by lia. rewrite fold_left_app, IH by lia. cbn [fold_left].
  unfold pfound_step. cbn [Rsum Rprod]. reflexivity.
Qed.

Lemma Rprod_bounds (u : nat -> R) K : (forall i, (i < K)%nat -> 0 <= u i < 1) -> 0 < Rprod (fun i => 1 - u i) K <= 1.
Proof.
  induction K as [|K IH]; intros H; cbn [Rprod]; [lra|].
  destruct IH as [A B]; [intros; apply H; lia|]. specialize (H K ltac:(lia)). split.
  - apply Rmult_lt_0_compat; lra.
  - assert (Rprod (fun i => 1 - u i) K * (1 - u K) <= 1 * 1) by (apply Rmult_le_compat; lra). lra.
Qed.

Lemma telescope (u : nat -> R) K :
  Rsum (fun i => Rprod (fun j => 1 - u j) i * u i) K = 1 - Rprod (fun i => 1 - u i) K.
Proof. induction K as [|K IH]; cbn [Rsum Rprod]; [lra|]. rewrite IH. lra. Qed.

Lemma nmax_R y m : In m y -> Forall (fun v => v <= m) y -> nmax y = Ok (m : RE).
Proof.
  intros Hm Hall. destruct y as [|a y]; [destruct Hm|].
  destruct (nmax (a :: y)) as [m'|] eqn:E; [|discriminate].
  destruct (nmax_spec _ _ (RN_total_order _) E) as [I M]. f_equal.
  rewrite Forall_forall in Hall. specialize (Hall _ I). specialize (M _ Hm).
  change (nleb m m') with (Rleb m m') in M. apply Rleb_true in M. change (m' = m :> R). lra.
Qed.

Definition errR (u : nat -> R) (K : nat) : R :=
  Rsum (fun i => Rprod (fun j => 1 - u j) i * (u i / INR (i + 1))) K.

Lemma err_value cutoff y s m : length y = length s -> In m y -> Forall (fun v => v <= m) y ->
  eval_per_query argsort (ERR cutoff) y s
  = Ok (errR (fun i => satisfy m (lab argsort y s i)) (retrieved cutoff (length s))).
Proof.
  intros HL Hm Hall. rewrite eval_top by auto. cbn [cutoff_of top_value]. rewrite (nmax_R y m) by auto.
  cbn [bind]. rewrite err_fold by (apply K_le; auto). reflexivity.
Qed.

Lemma u_bounds y s m i : length y = length s -> In m y -> Forall (fun v => v <= m) y -> Forall (fun v => 0 <= v) y ->
  (i < length s)%nat -> 0 <= satisfy m (lab argsort y s i) < 1.
Proof.
  intros HL Hm Hall Hy Hi. apply satisfy_bounds. rewrite Forall_forall in Hall, Hy.
  pose proof (lab_In y s i HL Hi) as I. split; [apply Hy|apply Hall]; auto.
Qed.

Lemma err_term u i : (forall j, (j <= i)%nat -> 0 <= u j < 1) ->
  0 <= Rprod (fun j => 1 - u j) i * (u i / INR (i + 1)) <= Rprod (fun j => 1 - u j) i * u i.
Proof.
  intros H. destruct (Rprod_bounds u i) as [A B]; [intros; apply H; lia|]. specialize (H i (le_n _)).
  assert (IP : 1 <= INR (i + 1)) by (change 1 with (INR 1); apply le_INR; lia).
  assert (Q : 0 <= u i / INR (i + 1) <= u i).
  { split.
    - apply Rmult_le_pos; [lra|]. left. apply Rinv_0_lt_compat. lra.
    - apply Rmult_le_reg_r with (INR (i + 1)); [lra|]. unfold Rdiv. rewrite Rmult_assoc, Rinv_l by lra.
      rewrite Rmult_1_r. rewrite <- (Rmult_1_r (u i)) at 1. apply Rmult_le_compat_l; lra. }
  split; [apply Rmult_le_pos; lra|apply Rmult_le_compat_l; lra].
Qed.

Lemma C26_lemma cutoff y s m : length y = length s -> In m y -> Forall (fun v => v <= m) y ->
  Forall (fun v => 0 <= v) y ->
  let K := retrieved cutoff (length s) in
  let u i := satisfy m (lab argsort y s i) in
  exists v, eval_per_query argsort (ERR cutoff) y s = Ok v /\
    v = Rsum (fun i => Rprod (fun j => 1 - u j) i * (u i / INR (i + 1))) K /\
    0 <= v <= 1 - Rprod (fun j => 1 - u j) K /\ v < 1.
Proof.
  intros HL Hm Hall Hy K u. eexists. split; [apply err_value; eauto|]. split; [reflexivity|].
  fold K. unfold errR.
  assert (U : forall i, (i < K)%nat -> 0 <= u i < 1).
  { intros i Hi. apply u_bounds; auto. pose proof (retrieved_bound cutoff (length s)). unfold K in Hi. lia. }
  change (0 <= Rsum (fun i => Rprod (fun j => 1 - u j) i * (u i / INR (i + 1))) K <= 1 - Rprod (fun j => 1 - u j) K
     /\ Rsum (fun i => Rprod (fun j => 1 - u j) i * (u i / INR (i + 1))) K < 1).
  destruct (Rprod_bounds u K U) as [A B].
  assert (L : Rsum (fun i => Rprod (fun j => 1 - u j) i * (u i / INR (i + 1))) K
              <= Rsum (fun i => Rprod (fun j => 1 - u j) i * u i) K).
  { apply Rsum_le. intros i Hi. apply err_term. intros; apply U; lia. }
  rewrite telescope in L.
  assert (0 <= Rsum (fun i => Rprod (fun j => 1 - u j) i * (u i / INR (i + 1))) K).
  { apply Rsum_nonneg. intros i Hi. apply err_term. intros; apply U; lia. }
  lra.
Qed.

Lemma err_mono_lemma c1 c2 y s v1 v2 : length y = length s -> Forall (fun v => 0 <= v) y ->
  (retrieved c1 (length s) <= retrieved c2 (length s))%nat ->
  eval_per_query argsort (ERR c1) y s = Ok v1 ->
  eval_per_query argsort (ERR c2) y s = Ok v2 -> v1 <= v2.
Proof.
  intros HL Hy HK E1 E2.
  assert (exists m, In m y /\ Forall (fun v => v <= m) y) as (m & Hm & Hall).
  { cbn [eval_per_query] in E1. unfold err in E1. destruct (nmax y) as [m|] eqn:E; [|discriminate].
    destruct (nmax_spec _ _ (RN_total_order _) E) as [I M]. exists m. split; auto.
    apply Forall_forall. intros v Hv. apply Rleb_true. apply M. auto. }
  rewrite (err_value c1 _ _ m) in E1 by auto. rewrite (err_value c2 _ _ m) in E2 by auto. inversion E1; inversion E2; subst.
  apply Rsum_mono_n; auto. intros i Hi.
  pose proof (retrieved_bound c2 (length s)).
  apply (err_term (fun i => satisfy m (lab argsort y s i))). intros j Hj. apply u_bounds; auto. rlia.
Qed.

Definition pfR (pa : R) (u : nat -> R) (K : nat) : R :=
  Rsum (fun i => Rprod (fun j => 1 - u j) i * u i * pa ^ i) K.

Lemma pfound_value cutoff pa y s m : length y = length s -> In m y -> Forall (fun v => v <= m) y ->
  eval_per_query argsort (Pfound cutoff pa) y s
  = Ok (pfR pa (fun i => satisfy m (lab argsort y s i)) (retrieved cutoff (length s))).
Proof.
  intros HL Hm Hall. rewrite eval_top by auto. cbn [cutoff_of top_value]. rewrite (nmax_R y m) by auto.
  cbn [bind]. rewrite pfound_fold by (apply K_le; auto). reflexivity.
Qed.

Lemma pow_01 (pa : R) i : 0 <= pa <= 1 -> 0 <= pa ^ i <= 1.
Proof.
  intros H. split; [apply pow_le; lra|]. rewrite <- (pow1 i). apply pow_incr. lra.
Qed.

Lemma C27_lemma cutoff pa y s m : length y = length s -> In m y -> Forall (fun v => v <= m) y ->
  Forall (fun v => 0 <= v) y -> 0 <= pa <= 1 ->
  let K := retrieved cutoff (length s) in
  let u i := satisfy m (lab argsort y s i) in
  exists v, eval_per_query argsort (Pfound cutoff pa) y s = Ok v /\
    v = Rsum (fun i => Rprod (fun j => 1 - u j) i * u i * pa ^ i) K /\
    0 <= v < 1 /\
    (pa = 1 -> v = 1 - Rprod (fun j => 1 - u j) K) /\
    (pa = 0 -> (0 < K)%nat -> v = u 0%nat).
Proof.
  intros HL Hm Hall Hy Hpa K u. eexists. split; [apply pfound_value; eauto|]. split; [reflexivity|].
  fold K. unfold pfR.
  assert (U : forall i, (i < K)%nat -> 0 <= u i < 1).
  { intros i Hi. apply u_bounds; auto. pose proof (retrieved_bound cutoff (length s)). unfold K in Hi. lia. }
  assert (T : forall i, (i < K)%nat -> 0 <= Rprod (fun j => 1 - u j) i * u i).
  { intros i Hi. apply Rmult_le_pos; [|apply U; auto]. left. apply Rprod_bounds. intros; apply U; lia. }
  change (0 <= Rsum (fun i => Rprod (fun j => 1 - u j) i * u i * pa ^ i) K < 1 /\
   (pa = 1 -> Rsum (fun i => Rprod (fun j => 1 - u j) i * u i * pa ^ i) K = 1 - Rprod (fun j => 1 - u j) K) /\
   (pa = 0 -> (0 < K)%nat -> Rsum (fun i => Rprod (fun j => 1 - u j) i * u i * pa ^ i) K = u 0%nat)).
  destruct (Rprod_bounds u K U) as [A B].
  assert (L : Rsum (fun i => Rprod (fun j => 1 - u j) i * u i * pa ^ i) K
              <= Rsum (fun i => Rprod (fun j => 1 - u j) i * u i) K).
  { apply Rsum_le. intros i Hi. rewrite <- Rmult_1_r. apply Rmult_le_compat_l; auto. apply pow_01; auto. }
  rewrite telescope in L. split; [split|split].
  - apply Rsum_nonneg. intros i Hi. apply Rmult_le_pos; auto. apply pow_01; auto.
  - lra.
  - intros ->. rewrite <- telescope. apply Rsum_ext. intros. rewrite pow1. lra.
  - intros E0 HK. rewrite E0. clear - HK. induction K as [|K IH]; [lia|]. destruct K as [|K].
    + cbn. lra.
    + cbn [Rsum] in *. rewrite IH by lia. rewrite pow_i by lia. lra.
Qed.

Lemma pfound_mono_lemma cutoff pa pa' y s v v' : length y = length s -> Forall (fun v => 0 <= v) y ->
  0 <= pa -> pa <= pa' ->
  eval_per_query argsort (Pfound cutoff pa) y s = Ok v ->
  eval_per_query argsort (Pfound cutoff pa') y s = Ok v' -> v <= v'.
Proof.
  intros HL Hy Hpa Hpp E1 E2.
  assert (exists m, In m y /\ Forall (fun v => v <= m) y) as (m & Hm & Hall).
  { cbn [eval_per_query] in E1. unfold pfound in E1. destruct (nmax y) as [m|] eqn:E; [|discriminate].
    destruct (nmax_spec _ _ (RN_total_order _) E) as [I M]. exists m. split; auto.
    apply Forall_forall. intros w Hw. apply Rleb_true. apply M. auto. }
  rewrite (pfound_value _ pa _ _ m) in E1 by auto. rewrite (pfound_value _ pa' _ _ m) in E2 by auto. inversion E1; inversion E2; subst.
  apply Rsum_le. intros i Hi. pose proof (retrieved_bound cutoff (length s)).
  apply Rmult_le_compat_l.
  - apply Rmult_le_pos.
    + left. apply (Rprod_bounds (fun i => satisfy m (lab argsort y s i))). intros; apply u_bounds; auto. rlia.
    + apply u_bounds; auto. rlia.
  - apply pow_incr. auto.
Qed.

(** *** C28 *)
Lemma geom p K : (1 - p) * Rsum (fun i => p ^ i) K = 1 - p ^ K.
Proof. change (car RE) with R in *. induction K as [|K IH]; cbn [Rsum pow]; [lra|]. rewrite Rmult_plus_distr_l, IH. lra. Qed.

Lemma rbp_value cutoff thr p y s : length y = length s ->
  eval_per_query argsort (RBP cutoff thr p) y s
  = Ok ((1 - p) * Rsum (fun i => (if Rleb thr (lab argsort y s i) then 1 else 0) * p ^ i) (retrieved cutoff (length s))).
Proof.
  intros HL. rewrite eval_top by auto. cbn [cutoff_of top_value].
  rewrite (nsum_prefix (fun i v => nmul (if nleb thr v then none else nzero) (npow p i))) by (apply K_le; auto).
  reflexivity.
Qed.

Lemma C28_lemma cutoff thr p y s : length y = length s -> 0 <= p <= 1 ->
  let K := retrieved cutoff (length s) in
  let rel i := Rleb thr (lab argsort y s i) in
  exists v, eval_per_query argsort (RBP cutoff thr p) y s = Ok v /\
    v = (1 - p) * Rsum (fun i => (if rel i then 1 else 0) * p ^ i) K /\
    0 <= v <= 1 - p ^ K /\ 1 - p ^ K <= 1 /\
    ((forall i, (i < K)%nat -> thr <= lab argsort y s i) -> v = 1 - p ^ K).
Proof.
  intros HL Hp K rel. eexists. split; [apply rbp_value; auto|]. split; [reflexivity|]. fold K.
  change (0 <= (1 - p) * Rsum (fun i => (if rel i then 1 else 0) * p ^ i) K <= 1 - p ^ K /\ 1 - p ^ K <= 1 /\
    ((forall i, (i < K)%nat -> thr <= lab argsort y s i) -> (1 - p) * Rsum (fun i => (if rel i then 1 else 0) * p ^ i) K = 1 - p ^ K)).
  change (car RE) with R in *.
  assert (P : forall i, 0 <= p ^ i <= 1) by (intros; apply pow_01; auto).
  rewrite <- geom. split; [split|split].
  - apply Rmult_le_pos; [lra|]. apply Rsum_nonneg. intros i _. specialize (P i). destruct (rel i); lra.
  - apply Rmult_le_compat_l; [lra|]. apply Rsum_le. intros i _. specialize (P i). destruct (rel i); lra.
  - rewrite geom. specialize (P K). lra.
  - intros H. f_equal. apply Rsum_ext. intros i Hi. unfold rel. rewrite (proj2 (Rleb_true _ _) (H i Hi)). lra.
Qed.

Lemma rbp_zero_lemma cutoff thr y s : length y = length s -> (0 < retrieved cutoff (length s))%nat ->
  eval_per_query argsort (RBP cutoff thr 0) y s = eval_per_query argsort (Precision (Some 1%Z) thr) y s.
Proof.
  intros HL HK. rewrite rbp_value by auto.
  destruct (precision_lemma argsort Hs (Some 1%Z) thr y s HL) as [_ P].
  assert (K1 : retrieved (Some 1%Z) (length s) = 1%nat).
  { pose proof (retrieved_bound cutoff (length s)). unfold retrieved. cbn. rlia. }
  rewrite K1 in P. destruct (P ltac:(lia)) as [-> _]. f_equal. cbn [num_of Nat.add].
  set (K := retrieved cutoff (length s)) in *. clearbody K. clear - HK.
  assert (E : Rsum (fun i => (if Rleb thr (lab argsort y s i) then 1 else 0) * 0 ^ i) K
              = (if Rleb thr (lab argsort y s 0) then 1 else 0)).
  { induction K as [|K IH]; [lia|]. destruct K as [|K].
    - cbn. lra.
    - cbn [Rsum] in *. rewrite IH by lia. rewrite pow_i by lia. lra. }
  change (car RE) with R in *. rewrite E. destruct (Rleb thr _); cbn; lra.
Qed.

(** *** C30 *)
Lemma nsum_R (l : list RE) : nsum l = fold_right Rplus 0 l.
Proof.
  unfold nsum. cbn [nadd nzero RE RN car].
  assert (G : forall (l : list R) (a : R), fold_left Rplus l a = a + fold_right Rplus 0 l).
  { induction l0 as [|x l0 IH]; intros a; cbn; [lra|]. rewrite IH. lra. }
  change (fold_left Rplus l 0 = fold_right Rplus 0 l). rewrite G. lra.
Qed.

Lemma sse_nonneg (y s : list R) : 0 <= sse y s.
Proof.
  unfold sse. induction (combine y s) as [|q l IH]; cbn; [lra|].
  pose proof (Rle_0_sqr (fst q - snd q)). unfold Rsqr in *. lra.
Qed.

Lemma sse_zero (y s : list R) : length y = length s -> (sse y s = 0 <-> y = s).
Proof.
  revert s. induction y as [|a y IH]; intros [|b s] HL; cbn in HL; try discriminate; [split; auto|].
  inversion HL as [HL']. unfold sse. cbn [combine map fold_right fst snd]. fold (sse y s).
  pose proof (sse_nonneg y s). pose proof (Rle_0_sqr (a - b)) as Q. unfold Rsqr in Q. split.
  - intros E. assert (E1 : (a - b) * (a - b) = 0) by lra. assert (E2 : sse y s = 0) by lra.
    apply IH in E2; auto. apply Rmult_integral in E1. f_equal; [lra|auto].
  - intros E. inversion E; subst. rewrite (proj2 (IH s HL') eq_refl). lra.
Qed.

Lemma mse_value y s : length y = length s -> mse_pq argsort None y s = Ok (sse y s : RE).
Proof.
  intros HL. unfold mse_pq. rewrite HL, Nat.eqb_refl. cbn [negb]. f_equal. apply nsum_R.
Qed.

Lemma C30_lemma y s : length y = length s ->
  exists v, eval_per_query argsort (RMSE None) y s = Ok v /\
    v = sqrt (sse y s) /\ 0 <= v /\ (v = 0 <-> y = s) /\
    ((1 < length y)%nat -> y <> s -> v <> sqrt (sse y s / INR (length y))).
Proof.
  intros HL. cbn [eval_per_query]. unfold rmse_pq. rewrite mse_value by auto. cbn [bind].
  eexists. split; [reflexivity|]. change (nsqrt (sse y s : RE)) with (sqrt (sse y s)).
  split; auto. pose proof (sse_nonneg y s) as N0. split; [apply sqrt_pos|]. split.
  - rewrite <- (sse_zero y s) by auto. split.
    + intros E. apply sqrt_eq_0; auto.
    + intros E. rewrite E. apply sqrt_0.
  - intros Hn Hne E.
    assert (IN : 1 < INR (length y)) by (change 1 with (INR 1); apply lt_INR; auto).
    apply sqrt_inj in E; auto.
    + assert (sse y s <> 0) by (intros E0; apply Hne, sse_zero; auto).
      assert (sse y s * INR (length y) = sse y s).
      { rewrite E at 1. unfold Rdiv. rewrite Rmult_assoc, Rinv_l by lra. lra. }
      assert (sse y s * (INR (length y) - 1) = 0) as Z by lra. apply Rmult_integral in Z. lra.
    + apply Rmult_le_pos; auto. left. apply Rinv_0_lt_compat. lra.
Qed.
End M2.
