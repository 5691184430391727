(** Proofs for C85: the roundings of float32 scoring. *)
From Coq Require Import List ZArith Reals Lia Lra Bool Psatz.
From Verif Require Import Base Lists Num M_Float S_Ensemble M_Ensemble S_Rounding L_Float L_Float2 L_Ensemble.
Import ListNotations.
Local Open Scope Z_scope.

Lemma decoded_sval k : decoded k = sval k.
Proof.
  assert (P : forall k, 0 < k -> (if k / 2 ^ 23 =? 0 then k mod 2 ^ 23 else (2 ^ 23 + k mod 2 ^ 23) * 2 ^ (k / 2 ^ 23 - 1)) = fval 23 k).
  { clear k. intros k H. unfold fval. change (23 + 1) with 24. pose proof (Z.div_mod k (2 ^ 23) ltac:(lia)) as D.
    pose proof (Z.mod_pos_bound k (2 ^ 23) ltac:(lia)) as B. destruct (Z.ltb_spec k (2 ^ 24)) as [L|L].
    - assert (C : k / 2 ^ 23 = 0 \/ k / 2 ^ 23 = 1). { assert (0 <= k / 2 ^ 23 < 2); [|lia]. split; [apply Z.div_pos; lia|apply Z.div_lt_upper_bound; lia]. }
      destruct C as [C|C]; rewrite C in *; cbn [Z.eqb]; [lia|]. change (2 ^ (1 - 1)) with 1. lia.
    - assert (2 <= k / 2 ^ 23) by (apply Z.div_le_lower_bound; lia). destruct (Z.eqb_spec (k / 2 ^ 23) 0); [lia|reflexivity]. }
  unfold decoded, sval. destruct (Z.ltb_spec k 0).
  - rewrite Z.abs_neq by lia. rewrite (P (- k)) by lia. rewrite Z.sgn_neg by lia. lia.
  - destruct (Z.eq_dec k 0) as [->|]; [reflexivity|]. rewrite Z.abs_eq, Z.sgn_pos, (P k) by lia. lia.
Qed.
Lemma sval_opp k : sval (- k) = - sval k.
Proof.
  unfold sval. destruct (Z.eq_dec k 0) as [->|]; [reflexivity|].
  destruct (Z.ltb_spec (- k) 0); destruct (Z.ltb_spec k 0); try lia. rewrite Z.opp_involutive; lia.
Qed.
Lemma sval_pos k : 0 <= k -> sval k = fval 23 k.
Proof. intros H. unfold sval. destruct (Z.ltb_spec k 0); [lia|reflexivity]. Qed.
Lemma fval_small k : 0 <= k <= 2 ^ 23 -> fval 23 k = k.
Proof. intros H. unfold fval. destruct (Z.ltb_spec k (2 ^ (23 + 1))); [reflexivity|]. change (2 ^ (23 + 1)) with (2 * 2 ^ 23) in *. lia. Qed.

(** Rounding of a fraction. *)
Lemma fround_err a b : 0 <= a -> 0 < b ->
  2 ^ 24 * Z.abs (fval 23 (fround 23 a b) * b - a) <= a \/ 2 * Z.abs (fval 23 (fround 23 a b) * b - a) <= b.
Proof.
  intros Ha Hb. destruct (Z.le_gt_cases (2 ^ 23 * b) a) as [H|H].
  - left. exact (fround_error 23 p23 a b Ha Hb H).
  - right. destruct (fround_parts 23 p23 a b Ha Hb) as (k & Hk & (K1 & K2) & R & _).
    assert (k < 2 ^ 23). { apply (fval_lt_inv 23 p23); try lia. rewrite (fval_small (2 ^ 23)) by lia. nia. }
    rewrite !fval_small in * by lia. destruct R as [[-> R]|[-> R]]; rewrite ?fval_small by lia; lia.
Qed.
Lemma fround_1 a : 0 <= a < 2 ^ 23 -> fround 23 a 1 = a.
Proof. intros H. rewrite <- (fval_small a) at 1 by lia. rewrite <- (Z.mul_1_r (fval 23 a)). apply (fround_exact 23 p23); lia. Qed.
Lemma fround_err1 a : 0 <= a -> 2 ^ 24 * Z.abs (fval 23 (fround 23 a 1) - a) <= a.
Proof.
  intros Ha. destruct (Z.le_gt_cases (2 ^ 23) a) as [H|H].
  - pose proof (fround_error 23 p23 a 1 Ha ltac:(lia) ltac:(lia)) as E. rewrite Z.mul_1_r in E. exact E.
  - rewrite fround_1, fval_small by lia. lia.
Qed.
Lemma fround_nonneg a b : 0 <= a -> 0 < b -> 0 <= fround 23 a b.
Proof. intros. apply (fround_ge 23 p23); try lia. rewrite fval_0 by lia. lia. Qed.
Lemma fround_nearest a b j : 0 <= a -> 0 < b -> 0 <= j ->
  Z.abs (fval 23 (fround 23 a b) * b - a) <= Z.abs (fval 23 j * b - a).
Proof.
  intros Ha Hb Hj. destruct (fround_parts 23 p23 a b Ha Hb) as (k & Hk & (K1 & K2) & R & _).
  assert (C : fval 23 j <= fval 23 k \/ fval 23 (k + 1) <= fval 23 j).
  { destruct (Z.le_gt_cases j k); [left|right]; apply (fval_le 23 p23); lia. }
  assert (M : fval 23 j * b <= fval 23 k * b \/ fval 23 (k + 1) * b <= fval 23 j * b) by (destruct C; [left|right]; nia).
  destruct R as [[-> R]|[-> R]]; lia.
Qed.

(** Signed. *)
Lemma sval_srat a b : b <> 0 -> exists s, (s = 1 \/ s = -1) /\
  sval (srat a b) * b - a = s * (fval 23 (fround 23 (Z.abs a) (Z.abs b)) * Z.abs b - Z.abs a).
Proof.
  intros Hb. unfold srat. set (k := fround 23 (Z.abs a) (Z.abs b)).
  assert (Hk : 0 <= k) by (apply fround_nonneg; lia).
  assert (Z0 : a = 0 -> k = 0). { intros ->. unfold k. pose proof (fround_exact 23 p23 0 (Z.abs b) ltac:(lia) ltac:(lia)) as E. rewrite fval_0 in E by lia. exact E. }
  destruct (Z.ltb_spec a 0); destruct (Z.ltb_spec b 0); destruct (Z.ltb_spec 0 b); destruct (Z.ltb_spec 0 a); try lia; cbn [andb orb];
    rewrite ?sval_opp, ?sval_pos by exact Hk.
  - exists (-1). split; [auto|]. lia.
  - exists (-1). split; [auto|]. lia.
  - exists 1. split; [auto|]. lia.
  - exists (-1). assert (a = 0) by lia. rewrite (Z0 H3), fval_0 by lia. split; [auto|]. lia.
  - exists 1. split; [auto|]. lia.
  - exists 1. assert (a = 0) by lia. rewrite (Z0 H3), fval_0 by lia. split; [auto|]. lia.
Qed.
Lemma srat_err a b : b <> 0 -> 2 ^ 24 * Z.abs (sval (srat a b) * b - a) <= Z.abs a \/ 2 * Z.abs (sval (srat a b) * b - a) <= Z.abs b.
Proof.
  intros Hb. destruct (sval_srat a b Hb) as (s & Hs & ->). destruct (fround_err (Z.abs a) (Z.abs b)); [lia|lia|left|right]; destruct Hs as [-> | ->]; lia.
Qed.
Lemma fround_nearest_signed a b j : 0 <= a -> 0 < b ->
  Z.abs (fval 23 (fround 23 a b) * b - a) <= Z.abs (sval j * b - a).
Proof.
  intros Ha Hb. destruct (Z.le_gt_cases 0 j) as [Hj|Hj].
  - rewrite sval_pos by exact Hj. apply fround_nearest; auto.
  - pose proof (fround_nearest a b 0 Ha Hb ltac:(lia)) as E. rewrite fval_0 in E by lia.
    assert (sval j <= 0). { pose proof (sval_le j 0) as L. change (sval 0) with 0 in L. lia. } nia.
Qed.
Lemma srat_nearest a b j : b <> 0 -> Z.abs (sval (srat a b) * b - a) <= Z.abs (sval j * b - a).
Proof.
  intros Hb. destruct (sval_srat a b Hb) as (s & Hs & ->).
  assert (E : exists i, Z.abs (sval j * b - a) = Z.abs (sval i * Z.abs b - Z.abs a)).
  { destruct (Z.lt_total a 0) as [A|[A|A]]; destruct (Z.lt_total b 0) as [B|[B|B]]; try lia;
      [exists j|exists (- j)|exists (- j)|exists j|exists (- j)|exists j]; rewrite ?sval_opp; lia. }
  destruct E as (i & ->). pose proof (fround_nearest_signed (Z.abs a) (Z.abs b) i ltac:(lia) ltac:(lia)).
  destruct Hs as [-> | ->]; lia.
Qed.
Lemma sround_srat n : sround n = srat n 1.
Proof. unfold sround, srat. change (Z.abs 1) with 1. destruct (Z.ltb_spec n 0); [rewrite Z.abs_neq by lia|rewrite Z.abs_eq by lia]; cbn [andb orb Z.ltb]; destruct (0 <? n); reflexivity. Qed.
Lemma sround_err n : 2 ^ 24 * Z.abs (sval (sround n) - n) <= Z.abs n.
Proof.
  unfold sround. destruct (Z.ltb_spec n 0).
  - rewrite sval_opp, sval_pos by (apply fround_nonneg; lia). pose proof (fround_err1 (- n) ltac:(lia)). lia.
  - rewrite sval_pos by (apply fround_nonneg; lia). pose proof (fround_err1 n ltac:(lia)). lia.
Qed.
