(** Algebra of [close]. *)
From Coq Require Import List ZArith Reals Lia Lra Psatz Permutation.
From Verif Require Import Base Num M_Metrics S_MetricError.
Import ListNotations.
Local Open Scope R_scope.

Section Close.
Variable u : R.
Hypothesis U : 0 <= u <= / 4.
Local Notation q := (growth u).

Lemma q_ge1 : 1 <= q.
Proof. unfold growth. rewrite <- Rinv_1 at 1. apply Rinv_le_contravar; lra. Qed.
Lemma q_inv : (1 - u) * q = 1.
Proof. unfold growth. field. lra. Qed.
Lemma q_ge : 1 + u <= q.
Proof. pose proof q_inv. pose proof q_ge1. nra. Qed.
Lemma qk_ge1 k : 1 <= q ^ k.
Proof. apply pow_R1_Rle. apply q_ge1. Qed.
Lemma qk_le j k : (j <= k)%nat -> q ^ j <= q ^ k.
Proof. intros H. apply Rle_pow; [apply q_ge1|exact H]. Qed.
Lemma qk_add j k : q ^ (j + k) = q ^ j * q ^ k.
Proof. apply pow_add. Qed.

Lemma close_refl x : 0 <= x -> close u 0 0 x x.
Proof. intros H. unfold close. cbn [pow]. repeat split; auto; lra. Qed.

Lemma close_weaken k e k' e' x y : close u k e x y -> (k <= k')%nat -> e <= e' -> 0 <= e -> close u k' e' x y.
Proof.
  intros (A & B & C & D & E) Hk He H0. pose proof (qk_le _ _ Hk). pose proof (qk_ge1 k).
  unfold close. repeat split; auto.
  - apply (Rle_trans _ _ _ C). apply Rmult_le_compat; lra.
  - apply (Rle_trans _ _ _ D). apply Rmult_le_compat; lra.
Qed.

Lemma close_trans j k d e x y z : 0 <= d -> 0 <= e -> close u j d x y -> close u k e y z -> close u (j + k) (d + e) x z.
Proof.
  intros Hd He (A & B & C & D & E) (A' & B' & C' & D' & E'). unfold close. rewrite qk_add.
  pose proof (qk_ge1 j). pose proof (qk_ge1 k).
  repeat split; auto.
  - apply (Rle_trans _ _ _ C). rewrite Rmult_assoc. apply Rmult_le_compat_l; [lra|].
    assert (d <= q ^ k * d) by nra. nra.
  - apply (Rle_trans _ _ _ D'). rewrite (Rmult_comm (q ^ j)), Rmult_assoc. apply Rmult_le_compat_l; [lra|].
    assert (e <= q ^ j * e) by nra. nra.
Qed.

(** One rounding. *)
Lemma close_round e x z : 0 <= e -> 0 <= x -> rounded_up_to u e x z -> close u 1 e z x.
Proof.
  intros He Hx (H & H0 & H1). rewrite (Rabs_pos_eq x Hx) in H. pose proof q_ge. pose proof q_inv. pose proof q_ge1.
  pose proof (H0 Hx) as Hz.
  unfold close. rewrite pow_1. repeat split; auto.
  - assert (z <= (1 + u) * x + e) by (destruct (Rcase_abs (z - x)); [rewrite Rabs_left in H by auto|rewrite Rabs_right in H by auto]; nra).
    nra.
  - assert ((1 - u) * x <= z + e) by (destruct (Rcase_abs (z - x)); [rewrite Rabs_left in H by auto|rewrite Rabs_right in H by auto]; nra).
    replace x with (q * ((1 - u) * x)) by (rewrite <- Rmult_assoc, (Rmult_comm q), q_inv; lra).
    apply Rmult_le_compat_l; lra.
  - intros E. apply Rle_antisym; [apply H1; lra|exact Hz].
Qed.

Lemma close_add k d e a a' b b' : close u k d a a' -> close u k e b b' -> close u k (d + e) (a + b) (a' + b').
Proof.
  intros (A & B & C & D & E) (A' & B' & C' & D' & E'). unfold close. repeat split; try lra.
Qed.

Lemma close_mul k j d a a' b b' : 0 <= d -> close u k d a a' -> close u j 0 b b' -> b' <= 1 ->
  close u (k + j) d (a * b) (a' * b').
Proof.
  intros Hd (A & B & C & D & E) (A' & B' & C' & D' & E') Hb. rewrite Rplus_0_r in C', D'.
  pose proof (qk_ge1 k). pose proof (qk_ge1 j). unfold close. rewrite qk_add.
  repeat split; try (apply Rmult_le_pos; lra).
  - apply Rle_trans with ((q ^ k * (a' + d)) * (q ^ j * b')); [apply Rmult_le_compat; lra|].
    replace (q ^ k * (a' + d) * (q ^ j * b')) with ((q ^ k * q ^ j) * (a' * b' + d * b')) by ring.
    apply Rmult_le_compat_l; nra.
  - apply Rle_trans with ((q ^ k * (a + d)) * b'); [apply Rmult_le_compat_r; lra|].
    rewrite Rmult_assoc, Rmult_assoc. apply Rmult_le_compat_l; [lra|].
    assert (a * b' <= a * (q ^ j * b)) by (apply Rmult_le_compat_l; lra). assert (d * b' <= q ^ j * d) by nra. lra.
  - intros H1. apply Rmult_integral in H1 as [H1|H1]; [rewrite (E H1)|rewrite (E' H1)]; ring.
Qed.

(** Both factors with an absolute error. *)
Lemma close_mul2 k j d e a a' b b' : 0 <= d <= 1 -> 0 <= e -> close u k d a a' -> close u j e b b' -> a' <= 1 -> b' <= 1 ->
  close u (2 * k + j) (d + 2 * e) (a * b) (a' * b').
Proof.
  intros Hd He (A & B & C & D & E) (A' & B' & C' & D' & E') Ha Hb.
  pose proof (qk_ge1 k). pose proof (qk_ge1 j). unfold close.
  replace (2 * k + j)%nat with (k + (k + j))%nat by lia. rewrite !qk_add.
  assert (0 <= a' * b') by (apply Rmult_le_pos; lra).
  assert (0 <= a * b) by (apply Rmult_le_pos; lra).
  repeat split; auto.
  - apply Rle_trans with ((q ^ k * (a' + d)) * (q ^ j * (b' + e))); [apply Rmult_le_compat; lra|].
    set (s := q ^ j) in *. set (t := q ^ k) in *. clearbody s t.
    assert (K : (a' + d) * (b' + e) <= a' * b' + (d + 2 * e)) by nra.
    assert (K0 : 0 <= a' * b' + (d + 2 * e)) by nra.
    assert (K1 : 1 <= t * s) by nra.
    apply Rle_trans with (t * s * (a' * b' + (d + 2 * e))).
    + replace (t * (a' + d) * (s * (b' + e))) with (t * s * ((a' + d) * (b' + e))) by ring. apply Rmult_le_compat_l; lra.
    + apply Rmult_le_compat_r; [exact K0|]. nra.
  - apply Rle_trans with ((q ^ k * (a + d)) * b'); [apply Rmult_le_compat_r; lra|].
    rewrite Rmult_assoc, Rmult_assoc. apply Rmult_le_compat_l; [lra|].
    assert (a * b' <= a * (q ^ j * (b + e))) by (apply Rmult_le_compat_l; lra).
    assert (a <= q ^ k * 2) by (apply (Rle_trans _ _ _ C); apply Rmult_le_compat_l; lra).
    assert (a * (q ^ j * (b + e)) <= q ^ j * (a * b) + q ^ j * (q ^ k * 2 * e)).
    { rewrite Rmult_plus_distr_l, Rmult_plus_distr_l. apply Rplus_le_compat; [right; ring|].
      replace (a * (q ^ j * e)) with (q ^ j * (a * e)) by ring. apply Rmult_le_compat_l; [lra|]. apply Rmult_le_compat_r; lra. }
    set (s := q ^ j) in *. set (t := q ^ k) in *. clearbody s t.
    assert (d * b' <= t * s * d) by (assert (1 <= t * s) by nra; nra).
    assert (s * (a * b) <= t * s * (a * b)) by (assert (s <= t * s) by nra; nra).
    nra.
  - intros H3. apply Rmult_integral in H3 as [H3|H3]; [rewrite (E H3)|rewrite (E' H3)]; ring.
Qed.

Lemma close_div k j d e a a' b b' : 0 <= d -> 0 < b -> 0 < b' -> d <= e * b' -> close u k d a a' -> close u j 0 b b' ->
  close u (k + j) e (a / b) (a' / b').
Proof.
  intros Hd Pb Pb' He (A & B & C & D & E) (A' & B' & C' & D' & E'). rewrite Rplus_0_r in C', D'.
  pose proof (qk_ge1 k). pose proof (qk_ge1 j). unfold close. rewrite qk_add.
  assert (H1 : / b <= q ^ j * / b').
  { apply (Rmult_le_reg_r (b * b')); [nra|]. replace (/ b * (b * b')) with b' by (field; lra).
    replace (q ^ j * / b' * (b * b')) with (q ^ j * b) by (field; lra). exact D'. }
  assert (H2 : / b' <= q ^ j * / b).
  { apply (Rmult_le_reg_r (b * b')); [nra|]. replace (/ b' * (b * b')) with b by (field; lra).
    replace (q ^ j * / b * (b * b')) with (q ^ j * b') by (field; lra). exact C'. }
  assert (H3 : d / b' <= e).
  { apply (Rmult_le_reg_r b'); [lra|]. unfold Rdiv. rewrite Rmult_assoc, Rinv_l by lra. lra. }
  assert (0 < / b) by (apply Rinv_0_lt_compat; lra). assert (0 < / b') by (apply Rinv_0_lt_compat; lra).
  assert (0 <= d / b') by (unfold Rdiv; apply Rmult_le_pos; lra).
  repeat split; try (unfold Rdiv; apply Rmult_le_pos; lra).
  - unfold Rdiv. apply Rle_trans with ((q ^ k * (a' + d)) * (q ^ j * / b')); [apply Rmult_le_compat; lra|].
    replace (q ^ k * (a' + d) * (q ^ j * / b')) with ((q ^ k * q ^ j) * (a' * / b' + d / b')) by (unfold Rdiv; ring).
    apply Rmult_le_compat_l; [nra|]. lra.
  - unfold Rdiv. apply Rle_trans with ((q ^ k * (a + d)) * / b'); [apply Rmult_le_compat_r; lra|].
    rewrite Rmult_assoc, Rmult_assoc. apply Rmult_le_compat_l; [lra|].
    assert (a * / b' <= a * (q ^ j * / b)) by (apply Rmult_le_compat_l; lra).
    assert (d / b' <= q ^ j * e) by nra. unfold Rdiv in *. nra.
  - intros H7. assert (a' = 0). { unfold Rdiv in H7. apply Rmult_integral in H7 as [H7|H7]; [exact H7|lra]. }
    rewrite (E H8). unfold Rdiv. ring.
Qed.

(** A value bounded away from zero absorbs an absolute error. *)
Lemma close_absorb k e w x y : 0 <= e -> 0 < w -> w <= y -> growth u ^ k * e <= u * w -> close u k e x y -> close u (S k) 0 x y.
Proof.
  intros He Hw Hy Hs (A & B & C & D & E). pose proof (qk_ge1 k). pose proof q_ge. pose proof q_inv. pose proof q_ge1.
  unfold close. rewrite !Rplus_0_r. cbn [pow]. repeat split; auto.
  - apply (Rle_trans _ _ _ C). rewrite Rmult_plus_distr_l.
    apply Rle_trans with ((1 + u) * (q ^ k * y)); [assert (u * w <= u * y) by nra; assert (y <= q ^ k * y) by nra; nra|].
    rewrite Rmult_assoc. apply Rmult_le_compat_r; [nra|lra].
  - assert ((1 - u) * y <= q ^ k * x) by (assert (u * w <= u * y) by nra; lra).
    replace y with (q * ((1 - u) * y)) by (rewrite <- Rmult_assoc, (Rmult_comm q), q_inv; lra).
    rewrite Rmult_assoc. apply Rmult_le_compat_l; lra.
Qed.
Lemma close_absorb0 k e w x y : 0 <= e -> 0 < w -> (y = 0 \/ w <= y) -> growth u ^ k * e <= u * w -> close u k e x y -> close u (S k) 0 x y.
Proof.
  intros He Hw [Hy|Hy] Hs C; [|eapply close_absorb; eauto].
  destruct C as (A & B & _ & _ & E). subst y. rewrite (E eq_refl). unfold close. rewrite !Rplus_0_r, Rmult_0_r.
  repeat split; lra.
Qed.

Lemma close_sqrt k e x y : 0 <= e -> close u k e x y -> close u k (sqrt e) (sqrt x) (sqrt y).
Proof.
  intros He (A & B & C & D & E). pose proof (qk_ge1 k).
  assert (G : forall a b, 0 <= a -> 0 <= b -> a <= q ^ k * (b + e) -> sqrt a <= q ^ k * (sqrt b + sqrt e)).
  { intros a b Ha Hb Hab. apply Rle_trans with (sqrt (q ^ k * (b + e))); [apply sqrt_le_1_alt; exact Hab|].
    pose proof (sqrt_pos b). pose proof (sqrt_pos e).
    rewrite sqrt_mult by lra. apply Rmult_le_compat; try apply sqrt_pos.
    - rewrite <- (sqrt_square (q ^ k)) at 2 by lra. apply sqrt_le_1_alt. nra.
    - rewrite <- (sqrt_square (sqrt b + sqrt e)) by lra. apply sqrt_le_1_alt.
      pose proof (sqrt_sqrt b Hb). pose proof (sqrt_sqrt e He). nra. }
  unfold close. repeat split; try apply sqrt_pos; try (apply G; assumption).
  intros H0. apply sqrt_eq_0 in H0; [|exact B]. rewrite (E H0). apply sqrt_0.
Qed.

Lemma close_pos k x y : close u k 0 x y -> 0 < y -> 0 < x.
Proof.
  intros (A & B & C & D & E) H. rewrite Rplus_0_r in D. pose proof (qk_ge1 k).
  destruct A as [A|A]; [exact A|]. subst x. rewrite Rmult_0_r in D. lra.
Qed.
End Close.

(** A larger unit of error. *)
Lemma close_unit u v j k e x y : 0 <= u <= / 4 -> 0 <= v <= / 4 -> growth u ^ j <= growth v ^ k -> 0 <= e -> close u j e x y -> close v k e x y.
Proof.
  intros U V H He (A & B & C & D & E). pose proof (qk_ge1 u U j). unfold close. repeat split; auto.
  - apply (Rle_trans _ _ _ C). apply Rmult_le_compat_r; lra.
  - apply (Rle_trans _ _ _ D). apply Rmult_le_compat_r; lra.
Qed.
