(** Consequences of the error bounds. *)
From Coq Require Import List ZArith Reals Lia Lra Psatz Bool.
From Verif Require Import Base Lists Num M_Dataset M_Metrics L_MetricsR M_Float S_Rounding L_Rounding2 M_MetricSums S_MetricError L_MetricError L_MetricError2 L_MetricError3 L_MetricError4 L_MetricError5 L_MetricError6.
Import ListNotations.
Local Open Scope R_scope.

Lemma growth_linear u k : 0 <= u <= / 4 -> INR k * u < 1 -> growth u ^ k <= / (1 - INR k * u).
Proof.
  intros U. induction k as [|k IH]; intros H.
  - cbn [pow INR]. rewrite Rmult_0_l, Rminus_0_r, Rinv_1. lra.
  - rewrite S_INR in *. pose proof (pos_INR k). specialize (IH ltac:(nra)). cbn [pow]. unfold growth at 1.
    assert (P1 : 0 < 1 - INR k * u) by nra. assert (P2 : 0 < 1 - (INR k + 1) * u) by lra. assert (P3 : 0 < 1 - u) by lra.
    apply Rle_trans with (/ (1 - u) * / (1 - INR k * u)).
    + apply Rmult_le_compat_l; [left; apply Rinv_0_lt_compat; exact P3|exact IH].
    + rewrite <- Rinv_mult. apply Rinv_le_contravar; [exact P2|]. nra.
Qed.

Lemma distance u k e x y : 0 <= u <= / 4 -> 0 <= e -> INR k * u <= / 2 -> close u k e x y ->
  Rabs (x - y) <= 2 * INR k * u * y + 2 * e.
Proof.
  intros U He Hk (A & B & C & D & _). pose proof (growth_linear u k U ltac:(lra)) as G. set (t := INR k * u) in *.
  assert (T : 0 <= t) by (apply Rmult_le_pos; [apply pos_INR|lra]).
  assert (G2 : growth u ^ k <= 1 + 2 * t).
  { apply Rle_trans with (1 := G). apply (Rmult_le_reg_r (1 - t)); [lra|]. rewrite Rinv_l by lra. nra. }
  assert (G3 : growth u ^ k <= 2) by lra.
  replace (2 * INR k * u * y) with (2 * t * y) by (unfold t; ring).
  assert (X : x <= (1 + 2 * t) * y + 2 * e) by nra.
  assert (Y : (1 - t) * y <= x + e).
  { apply Rle_trans with ((1 - t) * (/ (1 - t) * (x + e))).
    - apply Rmult_le_compat_l; [lra|]. apply Rle_trans with (1 := D). apply Rmult_le_compat_r; lra.
    - rewrite <- Rmult_assoc, Rinv_r by lra. lra. }
  apply Rabs_le. nra.
Qed.

Lemma order_kept u k e a b x y : 0 <= u <= / 4 -> 0 <= e -> INR k * u <= / 2 -> close u k e a x -> close u k e b y ->
  x + (2 * INR k * u * (x + y) + 4 * e) < y -> a < b.
Proof.
  intros U He Hk Ha Hb H. pose proof (distance u k e a x U He Hk Ha) as A. pose proof (distance u k e b y U He Hk Hb) as B.
  assert (A1 : a - x <= 2 * INR k * u * x + 2 * e) by (apply Rle_trans with (2 := A); apply Rle_abs).
  assert (B1 : y - b <= 2 * INR k * u * y + 2 * e) by (apply Rle_trans with (2 := B); rewrite Rabs_minus_sym; apply Rle_abs).
  lra.
Qed.

Lemma agree_impl {A B} (P Q : A -> B -> Prop) x y : (forall a b, P a b -> Q a b) -> agree P x y -> agree Q x y.
Proof. intros H. destruct x, y; cbn [agree]; auto. Qed.

Lemma Forall2_impl {A B} (P Q : A -> B -> Prop) l l' : (forall a b, P a b -> Q a b) -> Forall2 P l l' -> Forall2 Q l l'.
Proof. intros H. induction 1; constructor; auto. Qed.

Section Eval.
Context {N : num}.
Variables (val : N -> R) (u eta : R) (most : nat).
Hypothesis F : float_like N val u eta most.
Variables (sum : list N -> N) (D : nat -> nat).
Hypothesis HS : summation sum D.
Variables (argsort : list N -> list nat) (rargsort : list R -> list nat).
Hypothesis HA : ranks_alike val argsort rargsort.

Lemma per_query_error v m (y s : list N) : u <= v <= / 4 -> length y = length s -> (length y < most)%nat -> suitable val u v eta D m y ->
  agree (fun a b => close v (steps D m (length y)) (lost eta m (length y)) (val a) b)
    (per_query_by sum argsort m y s) (eval_per_query (N:=RE) rargsort (real_metric val m) (map val y) (map val s)).
Proof.
  intros V HL HC. destruct HS as [S1 S2]. destruct HA as [A1 A2]. pose proof (fl_u _ _ _ _ _ F) as U. pose proof (fl_eta _ _ _ _ _ F) as E0.
  pose proof (pos_INR (length y)) as Pn. assert (Pn1 : 0 <= INR (length y + 1)) by apply pos_INR.
  assert (W : 0 <= v <= / 4) by lra.
  assert (L : forall k e x x', 0 <= e -> agree (fun a b => close u k e (val a) b) x x' -> agree (fun a b => close v k e (val a) b) x x').
  { intros k e x x' He. apply agree_impl. intros a b H. apply (close_unit u v k k e); [exact U|exact W| |exact He|exact H].
    apply pow_incr. pose proof (q_ge1 u U). split; [lra|]. unfold growth. apply Rinv_le_contravar; lra. }
  assert (PG : forall g, Forall (fun x => grade (val x)) y -> Forall (fun x => proper g (val x)) y).
  { intros g HG. eapply Forall_impl; [|exact HG]. intros a [A|A]; destruct g; cbn [proper]; try lra; try (left; exact A); right; exact A. }
  assert (P1 : 0 <= INR (length y) * eta) by (apply Rmult_le_pos; lra).
  destruct m as [k t|k|r k t|k t|r k|g k|r g k|k|k p|k t p|k]; cbn [suitable steps lost per_query_by real_metric eval_per_query]; intros HQ.
  - apply L; [lra|]. exact (precision_error val u eta most F argsort rargsort A1 A2 y s HL HC k t).
  - apply L; [lra|]. exact (precision_max_error val u eta most F argsort rargsort A1 A2 y s HL HC k).
  - apply L; [lra|]. exact (recall_error val u eta most F argsort rargsort A1 A2 y s HL HC r k t HQ).
  - apply L; [lra|]. exact (mrr_error val u eta most F argsort rargsort A1 A2 y s HL HC k t).
  - apply L; [apply Rmult_le_pos; lra|]. exact (map_error val u eta most F argsort rargsort A1 A2 y s HL HC r k HQ).
  - apply L; [exact P1|]. exact (dcg_error val u eta most F sum D S1 S2 argsort rargsort A1 A2 y s HL HC g k s (eq_sym HL) (PG g HQ)).
  - destruct HQ as (Q1 & Q2 & Q3). apply L; [assert (0 <= INR (length y) * INR (length y + 1) * eta) by (apply Rmult_le_pos; [nra|lra]); lra|].
    exact (ndcg_error val u eta most F sum D S1 S2 argsort rargsort A1 A2 y s HL HC r g k Q1 Q2 Q3).
  - destruct HQ as (Q1 & Q2). destruct (nmax y) as [top|ex] eqn:E.
    + destruct (Q2 top eq_refl) as [Q3 Q4].
      exact (err_error val u eta most F argsort rargsort A1 A2 y s HL HC Q1 top v E (conj Q3 (proj2 V)) Q4 k).
    + unfold err. rewrite (nmax_map val u eta most F), E. cbn [bind agree]. reflexivity.
  - destruct HQ as (Q0 & (Q1 & Q2) & Q5). destruct (nmax y) as [top|ex] eqn:E.
    + destruct (Q2 top eq_refl) as [Q3 Q4].
      exact (pfound_error val u eta most F argsort rargsort A1 A2 y s HL HC Q1 top v E (conj Q3 (proj2 V)) Q4 Q5 k p Q0).
    + unfold pfound. rewrite (nmax_map val u eta most F), E. cbn [bind agree]. reflexivity.
  - apply L; [assert (0 <= INR (length y) * (eta + eta)) by (apply Rmult_le_pos; lra); lra|].
    exact (rbp_error val u eta most F sum D S1 S2 argsort rargsort A1 A2 y s HL HC k t p HQ).
  - apply L; [apply sqrt_pos|]. exact (rmse_error val u eta most F sum D S1 S2 argsort rargsort A1 A2 y s HL HC k).
Qed.

Lemma ndcg_eval_error r g k (d : dataset N) (s : list N) n : 0 <= val r -> sizes_within n d s -> (n < most)%nat -> (0 < n_queries d <= most)%nat ->
  Forall (fun v => grade (val v)) (ds_y d) -> growth u ^ (6 + D n) * (INR n * eta) <= u * / INR (n + 1) ->
  agree (fun x x' => close u (16 + 2 * D n + D (n_queries d)) (3 * eta + INR n * INR (n + 1) * eta) (val (fst x)) (fst x') /\
                     Forall2 (fun a b => close u (15 + 2 * D n) (2 * eta + INR n * INR (n + 1) * eta) (val a) b) (snd x) (snd x'))
    (eval_by sum (ndcg_by sum argsort r g k) d s)
    (metric_eval (N:=RE) (ndcg_fresh (N:=RE) rargsort (val r) g k) (real_dataset val d) (map val s)).
Proof.
  intros Hr HQ Hn Hq HG Hsm. destruct HS as [S1 S2]. destruct HA as [A1 A2]. pose proof (fl_u _ _ _ _ _ F) as U. pose proof (fl_eta _ _ _ _ _ F) as E0.
  pose proof (pos_INR n) as Pn. assert (Pn1 : 0 < INR (n + 1)) by (apply lt_0_INR; lia).
  assert (L : 0 <= INR n * INR (n + 1) * eta) by (apply Rmult_le_pos; [nra|lra]).
  assert (Q : forall t, In t (metric_queries d s) -> agree (fun a b => close u (14 + 2 * D n) (eta + INR n * INR (n + 1) * eta) (val a) b)
    (ndcg_by sum argsort r g k (fst (snd t)) (snd (snd t))) (ndcg_fresh (N:=RE) rargsort (val r) g k (map val (fst (snd t))) (map val (snd (snd t))))).
  { intros t Ht. destruct (HQ t Ht) as [E1 E2]. set (m := length (fst (snd t))) in *.
    assert (G : Forall (fun v => grade (val v)) (fst (snd t))).
    { unfold metric_queries in Ht. apply in_map_iff in Ht as (q & <- & _). cbn [fst snd]. apply Forall_forall. intros v Hv. rewrite Forall_forall in HG.
      apply HG. unfold slice in Hv. apply (In_firstn _ _ _) in Hv. exact (In_skipn _ _ _ Hv). }
    pose proof (le_INR _ _ E2) as I1. pose proof (pos_INR m) as I0. pose proof (S2 _ _ E2) as DM.
    assert (Pm1 : 0 < INR (m + 1)) by (apply lt_0_INR; lia). assert (I2 : INR (m + 1) <= INR (n + 1)) by (apply le_INR; lia).
    assert (Hsm' : growth u ^ (6 + D m) * (INR m * eta) <= u * / INR (m + 1)).
    { apply Rle_trans with (growth u ^ (6 + D n) * (INR n * eta)).
      - apply Rmult_le_compat; [pose proof (qk_ge1 u U (6 + D m)); lra|apply Rmult_le_pos; lra|apply (qk_le u U); lia|apply Rmult_le_compat_r; lra].
      - apply Rle_trans with (1 := Hsm). apply Rmult_le_compat_l; [lra|]. apply Rinv_le_contravar; lra. }
    pose proof (ndcg_error val u eta most F sum D S1 S2 argsort rargsort A1 A2 (fst (snd t)) (snd (snd t)) E1 ltac:(lia) r g k Hr G Hsm') as X.
    revert X. apply agree_impl. intros a b X. cbv beta in *.
    apply (close_weaken u U _ _ _ _ _ _ X); unfold ndcg_steps, ndcg_lost; fold m; [lia| |].
    - assert (INR m * INR (m + 1) <= INR n * INR (n + 1)) by (apply Rmult_le_compat; lra).
      assert (INR m * INR (m + 1) * eta <= INR n * INR (n + 1) * eta) by (apply Rmult_le_compat_r; lra). lra.
    - assert (0 <= INR m * INR (m + 1) * eta) by (apply Rmult_le_pos; [nra|lra]). lra. }
  pose proof (eval_error val u eta most F sum D S1 S2 (14 + 2 * D n) (eta + INR n * INR (n + 1) * eta) _ _ d s ltac:(lra) Hq Q) as X.
  revert X. apply agree_impl. intros a b [X Y]. split.
  - apply (close_weaken u U _ _ _ _ _ _ X); [lia|lra|lra].
  - revert Y. apply Forall2_impl. intros v w Z. cbv beta in *. apply (close_weaken u U _ _ _ _ _ _ Z); [lia|lra|lra].
Qed.
End Eval.

(** float32, additions in any order. *)
Lemma float32_ndcg (sum : list F32M -> F32M) D (argsort : list F32M -> list nat) rargsort (r : F32M) g k (y s : list F32M) : summation sum D -> ranks_alike (N:=F32M) real32 argsort rargsort ->
  length y = length s -> (14 + 2 * D (length y) <= 2 ^ 20)%nat -> (length y < 2 ^ 24)%nat -> 0 <= real32 r -> Forall (fun v => grade (real32 v)) y ->
  agree (fun x e => Rabs (real32 x - e) <= (14 + 2 * INR (D (length y))) * / 2 ^ 22 * e + / 2 ^ 90)
    (ndcg_by (N:=F32M) sum argsort r g k y s) (ndcg_fresh (N:=RE) rargsort (real32 r) g k (map real32 y) (map real32 s)).
Proof.
  intros [S1 S2] [A1 A2] HL HD HN Hr HG. set (n := length y) in *.
  pose proof F32_float_like as F. pose proof (fl_u _ _ _ _ _ F) as U. pose proof (fl_eta _ _ _ _ _ F) as E0.
  assert (HK : INR (14 + 2 * D n) * u32 <= / 2).
  { apply le_INR in HD. rewrite pow_INR in HD. replace (INR 2) with 2 in HD by reflexivity. pose proof roundoff_pos as RP.
    assert (EQ : 2 ^ 20 * u32 = / 8). { unfold u32, roundoff. simpl. lra. }
    assert (0 < u32) by (unfold u32; lra). nra. }
  assert (N1 : INR n <= 2 ^ 24). { apply Nat.lt_le_incl in HN. apply le_INR in HN. rewrite pow_INR in HN. exact HN. }
  assert (N2 : INR (n + 1) <= 2 ^ 24). { assert (H : (n + 1 <= 2 ^ 24)%nat) by lia. apply le_INR in H. rewrite pow_INR in H. exact H. }
  assert (N0 : 0 <= INR n) by apply pos_INR. assert (N3 : 1 <= INR (n + 1)) by (change 1 with (INR 1); apply le_INR; lia).
  assert (ET : eta32 = / 2 ^ 148).
  { unfold eta32, tiny. replace (2 ^ 150) with (4 * 2 ^ 148) by (rewrite <- !tech_pow_Rmult; ring). rewrite Rinv_mult, <- Rmult_assoc, Rinv_r by lra. ring. }
  assert (UT : u32 = / 2 ^ 23).
  { unfold u32, roundoff. replace (2 ^ 24) with (2 * 2 ^ 23) by (rewrite <- tech_pow_Rmult; ring). rewrite Rinv_mult, <- Rmult_assoc, Rinv_r by lra. ring. }
  assert (P48 : INR n * INR (n + 1) * eta32 <= / 2 ^ 100).
  { rewrite ET. apply Rle_trans with (2 ^ 24 * 2 ^ 24 * / 2 ^ 148).
    - apply Rmult_le_compat_r; [left; apply Rinv_0_lt_compat, pow_lt; lra|]. apply Rmult_le_compat; lra.
    - rewrite <- pow_add. replace (2 ^ 148) with (2 ^ (24 + 24) * 2 ^ 100) by (rewrite <- pow_add; reflexivity).
      rewrite Rinv_mult, <- Rmult_assoc, Rinv_r by (apply pow_nonzero; lra). lra. }
  assert (G : growth u32 ^ (6 + D n) <= 2).
  { apply Rle_trans with (growth u32 ^ (14 + 2 * D n)); [apply (qk_le u32 U); lia|].
    apply Rle_trans with (1 := growth_linear u32 (14 + 2 * D n) U ltac:(lra)). rewrite <- (Rinv_inv 2). apply Rinv_le_contravar; lra. }
  assert (SM : growth u32 ^ (6 + D n) * (INR n * eta32) <= u32 * / INR (n + 1)).
  { apply (Rmult_le_reg_r (INR (n + 1))); [lra|]. rewrite (Rmult_assoc u32), Rinv_l, Rmult_1_r by lra.
    assert (0 <= INR n * INR (n + 1) * eta32) by (apply Rmult_le_pos; [nra|lra]).
    apply Rle_trans with (2 * / 2 ^ 100).
    - replace (growth u32 ^ (6 + D n) * (INR n * eta32) * INR (n + 1)) with (growth u32 ^ (6 + D n) * (INR n * INR (n + 1) * eta32)) by ring.
      apply Rmult_le_compat; try lra. pose proof (qk_ge1 u32 U (6 + D n)). lra.
    - rewrite UT. replace (2 ^ 100) with (2 * 2 ^ 99) by (rewrite <- tech_pow_Rmult; ring). rewrite Rinv_mult, <- Rmult_assoc, Rinv_r, Rmult_1_l by lra.
      apply Rinv_le_contravar; [apply pow_lt; lra|]. apply Rle_pow; [lra|lia]. }
  pose proof (ndcg_error (N:=F32M) real32 u32 eta32 (2 ^ 24) F sum D S1 S2 argsort rargsort A1 A2 y s HL HN r g k Hr HG SM) as X.
  revert X. apply agree_impl. intros a e X. unfold ndcg_steps, ndcg_lost in X. fold n in X.
  assert (L : 0 <= INR n * INR (n + 1) * eta32) by (apply Rmult_le_pos; [nra|lra]).
  pose proof (proj1 (proj2 X)) as Pe.
  assert (L2 : 0 <= eta32 + INR n * INR (n + 1) * eta32) by lra.
  apply (distance u32 (14 + 2 * D n) _ _ _ U L2 HK) in X. apply Rle_trans with (1 := X). apply Rplus_le_compat.
  - apply Rmult_le_compat_r; [exact Pe|]. rewrite plus_INR, mult_INR. replace (INR 14) with 14 by (simpl; ring). replace (INR 2) with 2 by reflexivity.
    rewrite UT. replace (2 ^ 23) with (2 * 2 ^ 22) by (rewrite <- tech_pow_Rmult; ring). rewrite Rinv_mult. lra.
  - assert (eta32 <= / 2 ^ 100). { rewrite ET. apply Rinv_le_contravar; [apply pow_lt; lra|]. apply Rle_pow; [lra|lia]. }
    apply Rle_trans with (4 * / 2 ^ 100); [lra|]. replace (2 ^ 100) with (4 * 2 ^ 98) by (rewrite <- !tech_pow_Rmult; ring).
    rewrite Rinv_mult, <- Rmult_assoc, Rinv_r, Rmult_1_l by lra. apply Rinv_le_contravar; [apply pow_lt; lra|]. apply Rle_pow; [lra|lia].
Qed.
