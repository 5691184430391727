(** Proofs: the rounding of Coq's [SpecFloat] is the rounding of [M_Float] to the nearest rank. *)
From Coq Require Import List ZArith Lia Bool SpecFloat.
From Verif Require Import Base M_Float L_Float.
Import ListNotations.
Local Open Scope Z_scope.

(** ** Fractions *)
Lemma round_even_scale a b c : 0 < b -> 0 < c -> round_even (a * c) (b * c) = round_even a b.
Proof.
  intros Hb Hc. unfold round_even. rewrite Z.div_mul_cancel_r by lia. rewrite Z.mul_mod_distr_r by lia.
  replace (2 * (a mod b * c) <? b * c) with (2 * (a mod b) <? b).
  2:{ destruct (Z.ltb_spec (2 * (a mod b)) b); destruct (Z.ltb_spec (2 * (a mod b * c)) (b * c)); auto; nia. }
  replace (b * c <? 2 * (a mod b * c)) with (b <? 2 * (a mod b)); [reflexivity|].
  destruct (Z.ltb_spec b (2 * (a mod b))); destruct (Z.ltb_spec (b * c) (2 * (a mod b * c))); auto; nia.
Qed.
Lemma round_even_ratio a b a' b' : 0 < b -> 0 < b' -> a * b' = a' * b -> round_even a b = round_even a' b'.
Proof.
  intros Hb Hb' E. rewrite <- (round_even_scale a b b'), <- (round_even_scale a' b' b) by lia. f_equal; lia.
Qed.
Lemma div_ratio a b a' b' : 0 < b -> 0 < b' -> a * b' = a' * b -> a / b = a' / b'.
Proof.
  intros Hb Hb' E. rewrite <- (Z.div_mul_cancel_r a b b'), <- (Z.div_mul_cancel_r a' b' b) by lia. f_equal; lia.
Qed.
Lemma fround_ratio p a b a' b' : 0 < b -> 0 < b' -> a * b' = a' * b -> fround p a b = fround p a' b'.
Proof.
  intros Hb Hb' E. unfold fround. rewrite (div_ratio a b a' b') by assumption.
  assert (0 < 2 ^ Z.max 0 (Z.log2 (a' / b') - p)) by (apply Z.pow_pos_nonneg; lia).
  f_equal. apply round_even_ratio; nia.
Qed.

(** ** Digits *)
Lemma digits_pos_log q : Zpos (digits2_pos q) = Z.log2 (Zpos q) + 1.
Proof.
  induction q as [q IH|q IH|].
  - change (digits2_pos q~1) with (Pos.succ (digits2_pos q)). rewrite Pos2Z.inj_succ, IH, Pos2Z.inj_xI.
    rewrite Z.log2_succ_double by lia. lia.
  - change (digits2_pos q~0) with (Pos.succ (digits2_pos q)). rewrite Pos2Z.inj_succ, IH, Pos2Z.inj_xO.
    rewrite Z.log2_double by lia. lia.
  - reflexivity.
Qed.
Lemma digits_0 : Zdigits2 0 = 0. Proof. reflexivity. Qed.
Lemma digits_log m : 0 < m -> Zdigits2 m = Z.log2 m + 1.
Proof. intros H. destruct m as [|q|q]; try lia. apply digits_pos_log. Qed.
Lemma digits_nonneg m : 0 <= m -> 0 <= Zdigits2 m.
Proof. intros H. destruct (Z.eq_dec m 0) as [->|]; [rewrite digits_0; lia|]. rewrite digits_log by lia. pose proof (Z.log2_nonneg m). lia. Qed.
Lemma digits_spec m : 0 < m -> 2 ^ (Zdigits2 m - 1) <= m < 2 ^ Zdigits2 m /\ 1 <= Zdigits2 m.
Proof.
  intros H. rewrite digits_log by lia. pose proof (Z.log2_spec m H) as [A B]. pose proof (Z.log2_nonneg m).
  replace (Z.log2 m + 1 - 1) with (Z.log2 m) by lia. unfold Z.succ in B. lia.
Qed.
Lemma digits_upper m n : 0 <= m -> 0 <= n -> m < 2 ^ n -> Zdigits2 m <= n.
Proof.
  intros H Hn L. destruct (Z.eq_dec m 0) as [->|]; [rewrite digits_0; lia|]. rewrite digits_log by lia.
  apply Z.log2_lt_pow2 in L; lia.
Qed.
Lemma digits_lower m n : 0 <= n -> 2 ^ n <= m -> n + 1 <= Zdigits2 m.
Proof.
  intros Hn L. assert (0 < 2 ^ n) by (apply Z.pow_pos_nonneg; lia). rewrite digits_log by lia.
  apply Z.log2_le_pow2 in L; lia.
Qed.

(** ** Shifting to the right *)
(** The integer part of [a / b] and the place of the rest. *)
Definition located (m : Z) (l : location) (a b : Z) : Prop :=
  m = a / b /\
  l = if a mod b =? 0 then loc_Exact else loc_Inexact (2 * (a mod b) ?= b).
Definition placed (r : shr_record) (a b : Z) : Prop := located (shr_m r) (loc_of_shr_record r) a b.

Lemma placed_of m l a b : located m l a b -> placed (shr_record_of_loc m l) a b.
Proof. intros H. unfold placed. destruct l as [|[| |]]; exact H. Qed.
Lemma located_exact m : located m loc_Exact m 1.
Proof. unfold located. rewrite Z.div_1_r, Z.mod_1_r. auto. Qed.

Lemma double_mod a b : 0 <= a -> 0 < b ->
  a / (b * 2) = a / b / 2 /\ a mod (b * 2) = a mod b + b * (a / b mod 2).
Proof.
  intros Ha Hb. split; [rewrite Z.div_div by lia; reflexivity|].
  rewrite Z.rem_mul_r by lia. reflexivity.
Qed.
Lemma shr_1_m r : 0 <= shr_m r -> shr_m (shr_1 r) = shr_m r / 2.
Proof.
  destruct r as [m r s]. cbn [shr_m]. intros H. destruct m as [|q|q]; [reflexivity| |lia].
  destruct q as [q|q|]; cbn [shr_1 shr_m]; [| |reflexivity].
  - rewrite Pos2Z.inj_xI. rewrite Z.mul_comm, Z.div_add_l by lia. change (1 / 2) with 0. lia.
  - rewrite Pos2Z.inj_xO. rewrite Z.mul_comm, Z.div_mul by lia. reflexivity.
Qed.
Lemma shr_1_r r : 0 <= shr_m r -> shr_r (shr_1 r) = negb (shr_m r mod 2 =? 0).
Proof.
  destruct r as [m r s]. cbn [shr_m]. intros H. destruct m as [|q|q]; [reflexivity| |lia].
  destruct q as [q|q|]; cbn [shr_1 shr_r]; [| |reflexivity].
  - rewrite Pos2Z.inj_xI, Z.add_comm, Z.mul_comm, Z.mod_add by lia. reflexivity.
  - rewrite Pos2Z.inj_xO, Z.mul_comm, Z.mod_mul by lia. reflexivity.
Qed.
Lemma shr_1_s r : 0 <= shr_m r -> shr_s (shr_1 r) = shr_r r || shr_s r.
Proof.
  destruct r as [m r s]. cbn [shr_m]. intros H. destruct m as [|q|q]; [reflexivity| |lia].
  destruct q as [q|q|]; reflexivity.
Qed.
Lemma loc_bits r a b : 0 < b -> placed r a b <->
  shr_m r = a / b /\ (shr_r r = (b <=? 2 * (a mod b))) /\
  (shr_s r = negb ((a mod b =? 0) || (2 * (a mod b) =? b))).
Proof.
  intros Hb. unfold placed, located. pose proof (Z.mod_pos_bound a b Hb) as B. destruct r as [m r s]. cbn [shr_m shr_r shr_s loc_of_shr_record].
  set (x := a mod b) in *. destruct (Z.eqb_spec x 0) as [E|E].
  - rewrite E. destruct (Z.leb_spec b (2 * 0)); [lia|]. cbn [orb negb].
    destruct r, s; split; intros (-> & H1); try discriminate; try (destruct H1; discriminate); auto.
  - destruct (Z.compare_spec (2 * x) b) as [C|C|C];
      destruct (Z.leb_spec b (2 * x)); destruct (Z.eqb_spec (2 * x) b); try lia; cbn [orb negb];
      destruct r, s; split; intros (-> & H1); try discriminate; try (destruct H1; discriminate); auto.
Qed.
Lemma placed_shr_1 r a b : 0 <= a -> 0 < b -> placed r a b -> placed (shr_1 r) a (b * 2).
Proof.
  intros Ha Hb H. apply loc_bits in H; [|lia]. destruct H as (E & R & S). apply loc_bits; [lia|].
  assert (0 <= shr_m r) by (rewrite E; apply Z.div_pos; lia).
  rewrite shr_1_m, shr_1_r, shr_1_s by assumption. rewrite E, R, S.
  destruct (double_mod a b Ha Hb) as (-> & ->). split; [reflexivity|].
  pose proof (Z.mod_pos_bound a b Hb) as B. set (x := a mod b) in *.
  pose proof (Z.mod_pos_bound (a / b) 2 ltac:(lia)) as B2. set (y := a / b mod 2) in *.
  assert (Y : y = 0 \/ y = 1) by lia. destruct Y as [-> | ->]; cbn [Z.eqb negb].
  - rewrite Z.mul_0_r, Z.add_0_r. split.
    + symmetry. apply Z.leb_gt. lia.
    + destruct (Z.leb_spec b (2 * x)); destruct (Z.eqb_spec x 0); destruct (Z.eqb_spec (2 * x) b); destruct (Z.eqb_spec (2 * x) (b * 2)); cbn [orb negb]; try reflexivity; lia.
  - rewrite Z.mul_1_r. split.
    + symmetry. apply Z.leb_le. lia.
    + destruct (Z.leb_spec b (2 * x)); destruct (Z.eqb_spec x 0); destruct (Z.eqb_spec (2 * x) b); destruct (Z.eqb_spec (x + b) 0); destruct (Z.eqb_spec (2 * (x + b)) (b * 2)); cbn [orb negb]; try reflexivity; lia.
Qed.
Lemma placed_iter q : forall r a b, 0 <= a -> 0 < b -> placed r a b -> placed (iter_pos shr_1 q r) a (b * 2 ^ Zpos q).
Proof.
  induction q as [q IH|q IH|]; intros r a b Ha Hb H; cbn [iter_pos].
  - replace (b * 2 ^ Zpos q~1) with (b * 2 * 2 ^ Zpos q * 2 ^ Zpos q).
    2:{ rewrite Pos2Z.inj_xI. replace (2 * Zpos q + 1) with (1 + Zpos q + Zpos q) by lia. rewrite !Z.pow_add_r by lia. lia. }
    assert (0 < 2 ^ Zpos q) by (apply Z.pow_pos_nonneg; lia). apply IH; [assumption|nia|]. apply IH; [assumption|lia|]. apply placed_shr_1; assumption.
  - replace (b * 2 ^ Zpos q~0) with (b * 2 ^ Zpos q * 2 ^ Zpos q).
    2:{ rewrite (Pos2Z.inj_xO q). replace (2 * Zpos q) with (Zpos q + Zpos q) by lia. rewrite !Z.pow_add_r by lia. lia. }
    assert (0 < 2 ^ Zpos q) by (apply Z.pow_pos_nonneg; lia). apply IH; [assumption|nia|]. apply IH; assumption.
  - apply placed_shr_1; assumption.
Qed.
Lemma shr_placed r e n a b : 0 <= n -> 0 <= a -> 0 < b -> placed r a b ->
  exists r', shr r e n = (r', e + n) /\ placed r' a (b * 2 ^ n).
Proof.
  intros Hn Ha Hb H. destruct n as [|q|q]; [| |lia]; cbn [shr].
  - exists r. rewrite Z.add_0_r. split; [reflexivity|]. change (2 ^ 0) with 1. rewrite Z.mul_1_r. exact H.
  - eexists. split; [reflexivity|]. apply placed_iter; assumption.
Qed.
Lemma shr_neg r e n : n <= 0 -> shr r e n = (r, e).
Proof. intros H. destruct n; [reflexivity|lia|reflexivity]. Qed.
Lemma placed_round r a b : 0 < b -> placed r a b ->
  round_nearest_even (shr_m r) (loc_of_shr_record r) = round_even a b.
Proof.
  intros Hb (E & L). rewrite L, E. unfold round_even. pose proof (Z.mod_pos_bound a b Hb) as B.
  destruct (Z.eqb_spec (a mod b) 0) as [C|C].
  - rewrite C. destruct (Z.ltb_spec (2 * 0) b); [reflexivity|lia].
  - cbn [round_nearest_even]. destruct (Z.compare_spec (2 * (a mod b)) b); destruct (Z.ltb_spec (2 * (a mod b)) b); destruct (Z.ltb_spec b (2 * (a mod b))); try lia; reflexivity.
Qed.
