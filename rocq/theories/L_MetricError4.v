(** Rounding errors of ERR, Pfound and of the means over the queries. *)
From Coq Require Import List ZArith Reals Lia Lra Psatz Permutation Bool.
From Verif Require Import Base Lists Num M_Dataset M_Metrics S_Metrics L_Metrics L_MetricsR L_MetricsR2 S_Ensemble M_MetricSums S_MetricError L_MetricError L_MetricError2 L_MetricError3.
Import ListNotations.
Local Open Scope R_scope.

Section Cascade.
Context {N : num}.
Variables (val : N -> R) (u eta : R) (most : nat).
Hypothesis F : float_like N val u eta most.
Let U : 0 <= u <= / 4 := fl_u _ _ _ _ _ F.
Let E0 : 0 <= eta <= 1 := fl_eta _ _ _ _ _ F.
Variable argsort : list N -> list nat.
Variable rargsort : list R -> list nat.
Hypothesis same_order : forall l, rargsort (map val l) = argsort l.
Hypothesis complete : forall l, length (argsort l) = length l.
Variables y s : list N.
Hypothesis same_size : length y = length s.
Hypothesis counted : (length y < most)%nat.
Hypothesis grades : Forall (fun v => grade (val v)) y.
Notation n := (length y).
Variables (top : N) (v : R).
Hypothesis is_top : nmax y = Ok top.
Let B := Rexp2 (val top).
Hypothesis V : B * (growth u ^ 10 - 1) <= v <= / 4.
Hypothesis small : growth u ^ 9 * eta * (B * INR n) <= u.

Notation cl k e := (fun (a : N) (r : R) => close u k e (val a) r).
Notation cv k e := (fun (a : N) (r : R) => close v k e (val a) r).

Lemma top_in : In top y.
Proof. exact (proj1 (nmax_In val u eta most F y top is_top)). Qed.
Lemma n_pos : 1 <= INR n.
Proof. pose proof top_in. destruct y as [|a l]; [destruct H|]. change 1 with (INR 1). apply le_INR. cbn [length]. lia. Qed.
Lemma top_grade : 0 <= val top.
Proof. rewrite Forall_forall in grades. destruct (grades top top_in); lra. Qed.
Lemma B_ge1 : 1 <= B.
Proof. unfold B. rewrite <- Rexp2_0. apply Rexp2_le. apply top_grade. Qed.
Lemma V_range : u <= v <= / 4.
Proof.
  pose proof (q_ge u U). pose proof (q_ge1 u U). pose proof B_ge1. split; [|lra]. pose proof (qk_le u U 1 10 ltac:(lia)) as H2. rewrite pow_1 in H2.
  assert (growth u ^ 10 - 1 <= B * (growth u ^ 10 - 1)) by nra. lra.
Qed.
Lemma V_growth k : (k <= 10)%nat -> growth u ^ k <= growth v ^ 1.
Proof.
  intros Hk. pose proof (qk_le u U k 10 Hk). pose proof V_range as V'. assert (W : 0 <= v <= / 4) by lra.
  pose proof (q_ge v W). pose proof B_ge1. pose proof (qk_ge1 u U 10).
  assert (growth u ^ 10 - 1 <= B * (growth u ^ 10 - 1)) by nra. rewrite pow_1. lra.
Qed.
Lemma W : 0 <= v <= / 4.
Proof. pose proof V_range. lra. Qed.
Lemma FV : float_like N val v eta most.
Proof. exact (float_like_unit N val u v eta most F V_range). Qed.

Definition util (w : R) : R := utility (N:=RE) (val top) w.
Lemma util_eq w : util w = (Rexp2 w - 1) / B.
Proof. reflexivity. Qed.
Lemma util_range w : In w (map val y) -> (util w = 0 \/ / B <= util w) /\ 0 <= util w /\ / B <= 1 - util w.
Proof.
  intros Hw. apply in_map_iff in Hw as (x & <- & Hx). pose proof grades as Gr. rewrite Forall_forall in Gr.
  pose proof (proj2 (nmax_In val u eta most F y top is_top) x Hx) as L. pose proof B_ge1 as HB.
  assert (P : 0 < / B) by (apply Rinv_0_lt_compat; lra).
  rewrite util_eq. assert (E : 1 - (Rexp2 (val x) - 1) / B = (B + 1 - Rexp2 (val x)) / B) by (field; lra). rewrite E.
  assert (L2 : Rexp2 (val x) <= B) by (apply Rexp2_le; exact L). unfold Rdiv.
  destruct (Gr x Hx) as [G|G].
  - rewrite G, Rexp2_0. replace (1 - 1) with 0 by ring. rewrite Rmult_0_l. repeat split; [left; reflexivity|lra|].
    rewrite <- (Rmult_1_l (/ B)) at 1. apply Rmult_le_compat_r; lra.
  - apply Rexp2_grade in G. repeat split.
    + right. rewrite <- (Rmult_1_l (/ B)) at 1. apply Rmult_le_compat_r; lra.
    + apply Rmult_le_pos; lra.
    + rewrite <- (Rmult_1_l (/ B)) at 1. apply Rmult_le_compat_r; lra.
Qed.

Lemma utility_error x : In x y -> cl 7 0 (utility top x) (util (val x)).
Proof.
  intros Hx. pose proof grades as G. rewrite Forall_forall in G. pose proof B_ge1 as HB. pose proof n_pos as Hn.
  pose proof (exp_gain_error val u eta most F x (G x Hx)) as A.
  assert (C : cl 1 0 (nexp2 top) B).
  { apply (close_round u U 0); [lra|unfold B; pose proof (Rexp2_pos (val top)); lra|exact (proj1 (fl_exp2 _ _ _ _ _ F top top_grade))]. }
  pose proof (val_div val u eta most F 4 1 0 0 (nsub (nexp2 x) none) (nexp2 top) (Rexp2 (val x) - 1) B
    ltac:(lra) ltac:(lra) ltac:(lra) ltac:(lra) A C) as D. rewrite Rplus_0_r in D. rewrite <- util_eq in D.
  destruct (util_range (val x) (in_map val _ _ Hx)) as (Z & _).
  apply (close_absorb0 u U 6 eta (/ B)); [lra|apply Rinv_0_lt_compat; lra|exact Z| |exact D].
  apply (Rmult_le_reg_r B); [lra|]. rewrite (Rmult_assoc u), Rinv_l, Rmult_1_r by lra.
  apply Rle_trans with (growth u ^ 9 * eta * (B * INR n)); [|exact small].
  pose proof (qk_le u U 6 9 ltac:(lia)). pose proof (qk_ge1 u U 6).
  rewrite <- (Rmult_assoc (growth u ^ 9 * eta)).
  assert (A1 : growth u ^ 6 * eta * B <= growth u ^ 9 * eta * B) by (apply Rmult_le_compat_r; [lra|]; apply Rmult_le_compat_r; lra).
  assert (A2 : 0 <= growth u ^ 9 * eta * B) by (apply Rmult_le_pos; [apply Rmult_le_pos|]; lra).
  nra.
Qed.

(** The complement of a utility, in the larger unit. *)
Lemma miss_error x : In x y -> cv 2 0 (nsub none (utility top x)) (1 - util (val x)).
Proof.
  intros Hx. cbv beta. destruct (util_range (val x) (in_map val _ _ Hx)) as (_ & P0 & P1). pose proof B_ge1 as HB.
  assert (PB : 0 < / B) by (apply Rinv_0_lt_compat; lra).
  destruct (utility_error x Hx) as (A & _ & C & D & _). rewrite Rplus_0_r in C, D.
  set (z := val (utility top x)) in *. set (t := util (val x)) in *.
  pose proof (qk_ge1 u U 7) as Q7. pose proof (qk_le u U 7 10 ltac:(lia)) as Q10.
  assert (G : growth u ^ 7 - 1 <= v * / B).
  { apply (Rmult_le_reg_r B); [lra|]. rewrite Rmult_assoc, Rinv_l, Rmult_1_r by lra. nra. }
  pose proof W as W0. assert (v * / B <= v * (1 - t)) by (apply Rmult_le_compat_l; lra).
  assert (K1 : (1 - v) * (1 - t) <= 1 - z).
  { assert (z - t <= (growth u ^ 7 - 1) * t) by lra.
    assert ((growth u ^ 7 - 1) * t <= growth u ^ 7 - 1) by nra. lra. }
  assert (K2 : 1 - z <= (1 + v) * (1 - t)).
  { assert (t - z <= growth u ^ 7 - 1).
    { destruct (Rle_lt_dec t z); [lra|]. assert (growth u ^ 7 * z - z <= (growth u ^ 7 - 1) * 1) by nra. lra. }
    lra. }
  pose proof (q_ge v W) as R1. pose proof (q_inv v W) as R2. pose proof (q_ge1 v W) as R3.
  assert (K : close v 1 0 (1 - z) (1 - t)).
  { unfold close. rewrite pow_1, !Rplus_0_r. split; [nra|]. split; [lra|]. split; [nra|]. split; [|lra].
    replace (1 - t) with (growth v * ((1 - v) * (1 - t))) by (rewrite <- Rmult_assoc, (Rmult_comm (growth v)), R2; ring).
    apply Rmult_le_compat_l; lra. }
  pose proof (fl_sub _ _ _ _ _ FV none (utility top x)) as S. rewrite (fl_one _ _ _ _ _ F) in S. fold z in S.
  apply (close_round v W 0) in S; [|lra|exact (proj1 K)].
  pose proof (close_trans v W 1 1 0 0 _ _ _ ltac:(lra) ltac:(lra) S K) as T. rewrite Rplus_0_r in T. exact T.
Qed.

Lemma util_le1 x : In x y -> 0 <= util (val x) <= 1 /\ 0 <= 1 - util (val x) <= 1.
Proof.
  intros Hx. destruct (util_range (val x) (in_map val _ _ Hx)) as (_ & P0 & P1). pose proof B_ge1.
  assert (0 < / B) by (apply Rinv_0_lt_compat; lra). lra.
Qed.

(** One share of ERR. *)
Lemma share_error x i : In x y -> (i < n)%nat -> cv 1 0 (ndiv (utility top x) (nadd (nofnat i) none)) (util (val x) / (INR i + 1)).
Proof.
  intros Hx Hi. pose proof (pos_INR i) as Pi. pose proof B_ge1 as HB. pose proof n_pos as Hn.
  assert (D : cl 1 0 (nadd (nofnat i) none) (INR i + 1)).
  { pose proof (val_add val u eta most F 0 0 0 _ _ _ _ ltac:(lra) ltac:(lra) (val_count val u eta most F i ltac:(lia)) (val_one val u eta most F)) as H.
    rewrite Rplus_0_r in H. exact H. }
  pose proof (val_div val u eta most F 7 1 0 0 (utility top x) (nadd (nofnat i) none) (util (val x)) (INR i + 1)
    ltac:(lra) ltac:(lra) ltac:(lra) ltac:(lra) (utility_error x Hx) D) as H. rewrite Rplus_0_r in H.
  assert (I1 : INR i + 1 <= INR n) by (rewrite <- S_INR; apply le_INR; lia).
  assert (PW : 0 < / (B * INR n)) by (apply Rinv_0_lt_compat; nra).
  assert (Z : util (val x) / (INR i + 1) = 0 \/ / (B * INR n) <= util (val x) / (INR i + 1)).
  { destruct (util_range (val x) (in_map val _ _ Hx)) as ([Z|Z] & _); [left; rewrite Z; unfold Rdiv; ring|right].
    rewrite Rinv_mult. unfold Rdiv. apply Rmult_le_compat; [left; apply Rinv_0_lt_compat; lra|left; apply Rinv_0_lt_compat; lra|exact Z|].
    apply Rinv_le_contravar; lra. }
  assert (S : cl 10 0 (ndiv (utility top x) (nadd (nofnat i) none)) (util (val x) / (INR i + 1))).
  { apply (close_absorb0 u U 9 eta (/ (B * INR n))); [lra|exact PW|exact Z| |exact H].
    assert (0 < B * INR n) by nra.
    apply (Rmult_le_reg_r (B * INR n)); [lra|]. rewrite (Rmult_assoc u), Rinv_l, Rmult_1_r by lra. exact small. }
  apply (close_unit u v 10 1 0); [exact U|exact W|apply V_growth; lia|lra|exact S].
Qed.

Lemma err_fold l : Forall (fun x => In x y) l -> forall i (p e : N) (p' e' : R), (i + length l <= n)%nat ->
  cv (3 * i) (INR i * eta) p p' -> p' <= 1 -> cv (3 * i) (INR i * INR i * eta) e e' ->
  let r := fold_left (err_step top) l (i, p, e) in
  let r' := fold_left (err_step (N:=RE) (val top)) (map val l) (i, p', e') in
  cv (3 * (i + length l)) (INR (i + length l) * INR (i + length l) * eta) (snd r) (snd r').
Proof.
  induction 1 as [|x l Hx Hl IH]; intros i p e p' e' Hi Hp P1 He; cbn [map fold_left length].
  - cbv zeta. cbn [snd]. rewrite Nat.add_0_r. exact He.
  - cbn [length] in Hi. replace (i + S (length l))%nat with (S i + length l)%nat by lia.
    assert (S1 : err_step top (i, p, e) x = (S i, nmul p (nsub none (utility top x)), nadd e (nmul p (ndiv (utility top x) (nadd (nofnat i) none))))) by reflexivity.
    assert (S2 : err_step (N:=RE) (val top) (i, p', e') (val x) = (S i, p' * (1 - util (val x)), e' + p' * (util (val x) / (INR i + 1)))).
    { rewrite INR_IZR_INZ. reflexivity. }
    rewrite S1, S2. clear S1 S2. pose proof (pos_INR i) as Pi. destruct (util_le1 x Hx) as [T1 T2].
    assert (Q : 0 <= p') by exact (proj1 (proj2 Hp)).
    assert (L : 0 <= INR i * eta) by (apply Rmult_le_pos; lra). assert (L2 : 0 <= INR i * INR i * eta) by (apply Rmult_le_pos; nra).
    apply IH; [lia| |nra|].
    + pose proof (val_mul val v eta most FV (3 * i) 2 (INR i * eta) p _ p' _ L Hp (miss_error x Hx) (proj2 T2)) as M.
      apply (close_weaken v W _ _ _ _ _ _ M); [lia|rewrite S_INR; lra|lra].
    + assert (Hsh : util (val x) / (INR i + 1) <= 1).
      { apply (Rmult_le_reg_r (INR i + 1)); [lra|]. unfold Rdiv. rewrite Rmult_assoc, Rinv_l by lra. lra. }
      pose proof (val_mul val v eta most FV (3 * i) 1 (INR i * eta) p _ p' _ L Hp (share_error x i Hx ltac:(lia)) Hsh) as M.
      assert (He' : cv (3 * i + 2) (INR i * INR i * eta) e e') by (apply (close_weaken v W _ _ _ _ _ _ He); [lia|lra|lra]).
      assert (M' : cv (3 * i + 2) (eta + INR i * eta) (nmul p (ndiv (utility top x) (nadd (nofnat i) none))) (p' * (util (val x) / (INR i + 1)))).
      { apply (close_weaken v W _ _ _ _ _ _ M); [lia|lra|lra]. }
      assert (L3 : 0 <= eta + INR i * eta) by lra.
      pose proof (val_add val v eta most FV _ _ _ _ _ _ _ L2 L3 He' M') as A.
      apply (close_weaken v W _ _ _ _ _ _ A); [lia|rewrite S_INR; nra|lra].
Qed.

Lemma err_error k : agree (cv (3 * n) (INR n * INR n * eta)) (err argsort k y s) (err (N:=RE) rargsort k (map val y) (map val s)).
Proof.
  unfold err. rewrite (nmax_map val u eta most F), is_top, (order_map val argsort rargsort same_order), (take_map val). cbn [bind].
  destruct (take y (order argsort k s)) as [l|ex] eqn:E; cbn [bind agree]; [|reflexivity].
  assert (HL : (length l <= n)%nat) by (rewrite same_size; exact (take_order_length argsort complete k y s l E)).
  assert (HI : Forall (fun x => In x y) l) by (apply Forall_forall; intros x Hx; exact (take_In _ _ _ _ E Hx)).
  pose proof (err_fold l HI 0 none nzero 1 0 HL) as R. cbv zeta in R. cbn [Nat.add] in R.
  change (INR 0) with 0 in R. rewrite !Rmult_0_l in R.
  specialize (R (val_one val v eta most FV) ltac:(lra) (close_zero val v eta most FV 0 0 ltac:(lra))).
  apply (close_weaken v W _ _ _ _ _ _ R); [lia| |].
  - apply Rmult_le_compat_r; [lra|]. apply Rmult_le_compat; try apply pos_INR; apply le_INR; exact HL.
  - apply Rmult_le_pos; [apply Rmult_le_pos; apply pos_INR|lra].
Qed.

Hypothesis tiny_enough : INR n * eta <= 1.
Lemma pfound_fold pa l : 0 <= val pa <= 1 -> Forall (fun x => In x y) l -> forall i (p e : N) (p' e' : R), (i + length l <= n)%nat ->
  cv (3 * i) (INR i * eta) p p' -> p' <= 1 -> cv (6 * i + 1) (INR i * (INR i + 4) * eta) e e' ->
  let r := fold_left (pfound_step pa top) l (i, p, e) in
  let r' := fold_left (pfound_step (N:=RE) (val pa) (val top)) (map val l) (i, p', e') in
  cv (6 * (i + length l) + 1) (INR (i + length l) * (INR (i + length l) + 4) * eta) (snd r) (snd r').
Proof.
  intros Hpa. induction 1 as [|x l Hx Hl IH]; intros i p e p' e' Hi Hp P1 He; cbn [map fold_left length].
  - cbv zeta. cbn [snd]. rewrite Nat.add_0_r. exact He.
  - cbn [length] in Hi. replace (i + S (length l))%nat with (S i + length l)%nat by lia.
    assert (S1 : pfound_step pa top (i, p, e) x = (S i, nmul p (nsub none (utility top x)), nadd e (nmul (nmul p (utility top x)) (npow pa i)))) by reflexivity.
    assert (S2 : pfound_step (N:=RE) (val pa) (val top) (i, p', e') (val x) = (S i, p' * (1 - util (val x)), e' + p' * util (val x) * val pa ^ i)) by reflexivity.
    rewrite S1, S2. clear S1 S2. pose proof (pos_INR i) as Pi. destruct (util_le1 x Hx) as [T1 T2].
    assert (Q : 0 <= p') by exact (proj1 (proj2 Hp)).
    assert (L : 0 <= INR i * eta) by (apply Rmult_le_pos; lra). assert (L2 : 0 <= INR i * (INR i + 4) * eta) by (apply Rmult_le_pos; nra).
    assert (I1 : INR i + 1 <= INR n) by (rewrite <- S_INR; apply le_INR; lia).
    assert (L3 : 0 <= eta + INR i * eta <= 1) by (split; [lra|nra]).
    apply IH; [lia| |nra|].
    + pose proof (val_mul val v eta most FV (3 * i) 2 (INR i * eta) p _ p' _ L Hp (miss_error x Hx) (proj2 T2)) as M.
      apply (close_weaken v W _ _ _ _ _ _ M); [lia|rewrite S_INR; lra|lra].
    + assert (Hu : cv 1 0 (utility top x) (util (val x))).
      { apply (close_unit u v 7 1 0); [exact U|exact W|apply V_growth; lia|lra|exact (utility_error x Hx)]. }
      pose proof (val_mul val v eta most FV (3 * i) 1 (INR i * eta) p _ p' _ L Hp Hu (proj2 T1)) as M.
      assert (Hw : cv 1 eta (npow pa i) (val pa ^ i)).
      { apply (close_round v W eta); [lra|apply pow_le; lra|apply (fl_pow _ _ _ _ _ FV); exact Hpa]. }
      assert (W1 : val pa ^ i <= 1) by (rewrite <- (pow1 i); apply pow_incr; exact Hpa).
      pose proof (val_mul2 val v eta most FV (S (3 * i + 1)) 1 (eta + INR i * eta) eta _ _ _ _ L3 ltac:(lra) M Hw ltac:(nra) W1) as M2.
      assert (He' : cv (6 * i + 6) (INR i * (INR i + 4) * eta) e e') by (apply (close_weaken v W _ _ _ _ _ _ He); [lia|lra|lra]).
      assert (M' : cv (6 * i + 6) ((INR i + 4) * eta) (nmul (nmul p (utility top x)) (npow pa i)) (p' * util (val x) * val pa ^ i)).
      { apply (close_weaken v W _ _ _ _ _ _ M2); [lia|lra|lra]. }
      assert (L4 : 0 <= (INR i + 4) * eta) by nra.
      pose proof (val_add val v eta most FV _ _ _ _ _ _ _ L2 L4 He' M') as A.
      apply (close_weaken v W _ _ _ _ _ _ A); [lia|rewrite S_INR; nra|nra].
Qed.
Lemma pfound_error k pa : 0 <= val pa <= 1 ->
  agree (cv (6 * n + 1) (INR n * (INR n + 4) * eta)) (pfound argsort k pa y s) (pfound (N:=RE) rargsort k (val pa) (map val y) (map val s)).
Proof.
  intros Hpa. unfold pfound. rewrite (nmax_map val u eta most F), is_top, (order_map val argsort rargsort same_order), (take_map val). cbn [bind].
  destruct (take y (order argsort k s)) as [l|ex] eqn:E; cbn [bind agree]; [|reflexivity].
  assert (HL : (length l <= n)%nat) by (rewrite same_size; exact (take_order_length argsort complete k y s l E)).
  assert (HI : Forall (fun x => In x y) l) by (apply Forall_forall; intros x Hx; exact (take_In _ _ _ _ E Hx)).
  pose proof (pfound_fold pa l Hpa HI 0 none nzero 1 0 HL) as R. cbv zeta in R. cbn [Nat.add Nat.mul] in R.
  change (INR 0) with 0 in R. rewrite !Rmult_0_l in R.
  specialize (R (val_one val v eta most FV) ltac:(lra) (close_zero val v eta most FV 1 0 ltac:(lra))).
  pose proof (pos_INR (length l)). pose proof (le_INR _ _ HL).
  apply (close_weaken v W _ _ _ _ _ _ R); [lia| |].
  - apply Rmult_le_compat_r; [lra|]. nra.
  - apply Rmult_le_pos; [nra|lra].
Qed.
End Cascade.
