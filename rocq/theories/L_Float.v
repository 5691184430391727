(** Proofs: ranks, rounding to nearest, %.9g and back, lowered thresholds. *)
From Coq Require Import Ascii String List ZArith Lia Bool.
From Verif Require Import Base Lists M_Text M_Svmlight S_Svmlight L_Text M_Float.
Import ListNotations.
Local Open Scope Z_scope.

(** ** Ranks *)
Section P.
Variable p : Z.
Hypothesis P0 : 0 <= p.
Lemma pow_p : 0 < 2 ^ p.
Proof. apply Z.pow_pos_nonneg; lia. Qed.
Lemma pow_p1 : 2 ^ (p + 1) = 2 * 2 ^ p.
Proof. rewrite Z.pow_add_r by lia. lia. Qed.

Definition split_rank (e m : Z) : Prop := 0 <= e /\ 0 <= m < 2 ^ (p + 1) /\ (e = 0 \/ 2 ^ p <= m).
Lemma fval_low e m : split_rank e m -> fval p (e * 2 ^ p + m) = m * 2 ^ e.
Proof.
  intros (He & Hm & D). pose proof pow_p. pose proof pow_p1. unfold fval.
  destruct (Z.ltb_spec (e * 2 ^ p + m) (2 ^ (p + 1))) as [L|L].
  - assert (e = 0) by nia. subst. change (2 ^ 0) with 1. lia.
  - assert (1 <= e) by nia. destruct D as [D|D]; [lia|].
    replace (e * 2 ^ p + m) with ((m - 2 ^ p) + (e + 1) * 2 ^ p) by lia.
    rewrite Z.mod_add, Z.div_add by lia. rewrite Z.mod_small, Z.div_small by lia.
    replace (0 + (e + 1) - 1) with e by lia. f_equal. lia.
Qed.
Lemma fval_high e m : split_rank e m -> fval p (e * 2 ^ p + (m + 1)) = (m + 1) * 2 ^ e.
Proof.
  intros (He & Hm & D). pose proof pow_p. pose proof pow_p1.
  destruct (Z.eq_dec (m + 1) (2 ^ (p + 1))) as [E|E].
  - replace (e * 2 ^ p + (m + 1)) with ((e + 1) * 2 ^ p + 2 ^ p) by lia.
    rewrite fval_low by (unfold split_rank; lia). rewrite E, pow_p1, Z.pow_add_r by lia. lia.
  - apply fval_low. unfold split_rank. lia.
Qed.
Lemma rank_split k : 0 <= k -> exists e m, k = e * 2 ^ p + m /\ split_rank e m.
Proof.
  intros H. pose proof pow_p. pose proof pow_p1. unfold split_rank.
  pose proof (Z.div_mod k (2 ^ p) ltac:(lia)) as D. pose proof (Z.mod_pos_bound k (2 ^ p) ltac:(lia)) as B.
  pose proof (Z.div_pos k (2 ^ p) ltac:(lia) ltac:(lia)) as Q. destruct (Z.eq_dec (k / 2 ^ p) 0) as [E|E].
  - exists 0, k. rewrite E in D. lia.
  - exists (k / 2 ^ p - 1), (k mod 2 ^ p + 2 ^ p). nia.
Qed.
(** Neighbours. *)
Lemma fval_step k : 0 <= k -> exists e m, k = e * 2 ^ p + m /\ split_rank e m /\ fval p k = m * 2 ^ e /\ fval p (k + 1) = (m + 1) * 2 ^ e.
Proof.
  intros H. destruct (rank_split k H) as (e & m & E & S). exists e, m. split; auto. split; auto.
  rewrite E. split; [apply fval_low; auto|]. rewrite <- Z.add_assoc. apply fval_high; auto.
Qed.
Lemma fval_0 : fval p 0 = 0.
Proof. unfold fval. destruct (Z.ltb_spec 0 (2 ^ (p + 1))); auto. pose proof pow_p. pose proof pow_p1. lia. Qed.
Lemma fval_lt1 k : 0 <= k -> fval p k < fval p (k + 1).
Proof.
  intros H. destruct (fval_step k H) as (e & m & _ & (He & _) & -> & ->). assert (0 < 2 ^ e) by (apply Z.pow_pos_nonneg; lia). lia.
Qed.
Lemma fval_lt j k : 0 <= j -> j < k -> fval p j < fval p k.
Proof.
  intros H. assert (K : forall n, 0 <= n -> fval p j < fval p (j + 1 + n)).
  { apply natlike_ind.
    - rewrite Z.add_0_r. apply fval_lt1; auto.
    - intros n Hn IH. replace (j + 1 + Z.succ n) with (j + 1 + n + 1) by lia. pose proof (fval_lt1 (j + 1 + n) ltac:(lia)). lia. }
  intros L. replace k with (j + 1 + (k - j - 1)) by lia. apply K. lia.
Qed.
Lemma fval_le j k : 0 <= j -> j <= k -> fval p j <= fval p k.
Proof. intros H L. destruct (Z.eq_dec j k) as [->|]; [lia|]. pose proof (fval_lt j k H). lia. Qed.
Lemma fval_lt_inv j k : 0 <= k -> fval p j < fval p k -> 0 <= j -> j < k.
Proof. intros H L Hj. destruct (Z.lt_ge_cases j k); auto. pose proof (fval_le k j H). lia. Qed.
Lemma fval_nonneg k : 0 <= k -> 0 <= fval p k.
Proof. intros H. pose proof (fval_le 0 k ltac:(lia) H). rewrite fval_0 in *. lia. Qed.
(** Gaps: at most one part in 2^p of a value that is not too small, at least one in 2^(p+1). *)
Lemma gap_up k : 0 <= k -> fval p k <= 2 ^ (p + 1) * (fval p (k + 1) - fval p k).
Proof.
  intros H. destruct (fval_step k H) as (e & m & _ & (He & Hm & _) & -> & ->). assert (0 < 2 ^ e) by (apply Z.pow_pos_nonneg; lia). nia.
Qed.
Lemma gap_down k : 1 <= k -> fval p k <= 2 ^ (p + 1) * (fval p k - fval p (k - 1)).
Proof.
  intros H. destruct (fval_step (k - 1) ltac:(lia)) as (e & m & _ & (He & Hm & _) & -> & E). replace (k - 1 + 1) with k in E by lia.
  rewrite E. assert (0 < 2 ^ e) by (apply Z.pow_pos_nonneg; lia). nia.
Qed.
Lemma gap_small k : 0 <= k -> 2 ^ p <= fval p k -> 2 ^ p * (fval p (k + 1) - fval p k) <= fval p k.
Proof.
  intros H L. destruct (fval_step k H) as (e & m & _ & (He & Hm & D) & E1 & E2). rewrite E1 in *. rewrite E2.
  assert (0 < 2 ^ e) by (apply Z.pow_pos_nonneg; lia). destruct D as [->|D]; [change (2 ^ 0) with 1 in *; lia|nia].
Qed.

(** ** Rounding *)
Lemma round_even_cases a b : 0 < b ->
  (round_even a b = a / b /\ 2 * (a mod b) <= b \/ round_even a b = a / b + 1 /\ b <= 2 * (a mod b)) /\
  (2 * (a mod b) < b -> round_even a b = a / b) /\ (b < 2 * (a mod b) -> round_even a b = a / b + 1).
Proof.
  intros H. unfold round_even. destruct (Z.ltb_spec (2 * (a mod b)) b); destruct (Z.ltb_spec b (2 * (a mod b))); try lia.
  destruct (Z.even (a / b)); lia.
Qed.
Lemma round_even_near a b : 0 < b -> 2 * Z.abs (round_even a b * b - a) <= b.
Proof.
  intros H. pose proof (Z.div_mod a b ltac:(lia)) as D. pose proof (Z.mod_pos_bound a b ltac:(lia)).
  destruct (proj1 (round_even_cases a b H)) as [[-> ?]|[-> ?]]; lia.
Qed.

Lemma fround_parts a b : 0 <= a -> 0 < b -> exists k, 0 <= k /\ fval p k * b <= a < fval p (k + 1) * b /\
  (fround p a b = k /\ 2 * a <= (fval p k + fval p (k + 1)) * b \/ fround p a b = k + 1 /\ (fval p k + fval p (k + 1)) * b <= 2 * a) /\
  (2 * a < (fval p k + fval p (k + 1)) * b -> fround p a b = k) /\ ((fval p k + fval p (k + 1)) * b < 2 * a -> fround p a b = k + 1).
Proof.
  intros Ha Hb. pose proof pow_p. pose proof pow_p1. set (n := a / b).
  assert (Hn : 0 <= n) by (apply Z.div_pos; lia).
  set (e := Z.max 0 (Z.log2 n - p)). assert (He : 0 <= e) by lia. assert (H2 : 0 < 2 ^ e) by (apply Z.pow_pos_nonneg; lia).
  set (d := b * 2 ^ e). assert (Hd : 0 < d) by (unfold d; nia).
  set (m := a / d).
  assert (Em : m = n / 2 ^ e) by (unfold m, d, n; rewrite Z.div_div by lia; reflexivity).
  assert (S : split_rank e m).
  { unfold split_rank. split; [lia|]. rewrite Em. destruct (Z.eq_dec n 0) as [->|NZ].
    { rewrite Z.div_0_l by lia. split; [lia|left]. unfold e. change (Z.log2 0) with 0. lia. }
    pose proof (Z.log2_spec n ltac:(lia)) as [L1 L2]. pose proof (Z.log2_nonneg n).
    destruct (Z.le_gt_cases (Z.log2 n) p) as [G|G].
    - assert (e = 0) as -> by (unfold e; lia). change (2 ^ 0) with 1. rewrite Z.div_1_r. split; [|auto]. split; [lia|].
      eapply Z.lt_le_trans; [exact L2|]. apply Z.pow_le_mono_r; lia.
    - assert (EE : e = Z.log2 n - p) by (unfold e; lia). split; [split|right].
      + apply Z.div_pos; lia.
      + apply Z.div_lt_upper_bound; [lia|]. rewrite <- Z.pow_add_r by lia. replace (e + (p + 1)) with (Z.succ (Z.log2 n)) by lia. exact L2.
      + apply Z.div_le_lower_bound; [lia|]. rewrite <- Z.pow_add_r by lia. replace (e + p) with (Z.log2 n) by lia. exact L1. }
  exists (e * 2 ^ p + m). pose proof S as (_ & Sm & _).
  split; [nia|]. rewrite fval_low by exact S. rewrite <- Z.add_assoc, fval_high by exact S.
  pose proof (Z.div_mod a d ltac:(lia)) as D. fold m in D. pose proof (Z.mod_pos_bound a d Hd) as B.
  assert (E1 : m * 2 ^ e * b = d * m) by (unfold d; lia). assert (E2 : (m + 1) * 2 ^ e * b = d * m + d) by (unfold d; lia).
  split; [lia|]. unfold fround. fold n e d. destruct (round_even_cases a d Hd) as (C1 & C2 & C3). fold m in C1, C2, C3.
  replace ((m * 2 ^ e + (m + 1) * 2 ^ e) * b) with (2 * (d * m) + d) by lia.
  split; [destruct C1 as [[-> C]|[-> C]]; [left|right]; lia|]. split; intros C; [rewrite C2 by lia|rewrite C3 by lia]; lia.
Qed.
Lemma fround_unique a b k : 0 <= a -> 0 < b -> 0 <= k -> 2 * a < (fval p k + fval p (k + 1)) * b ->
  (k = 0 \/ (fval p (k - 1) + fval p k) * b < 2 * a) -> fround p a b = k.
Proof.
  intros Ha Hb Hk U L. destruct (fround_parts a b Ha Hb) as (j & Hj & (J1 & J2) & _ & R1 & R2).
  assert (LE : j < k + 1).
  { apply fval_lt_inv; try lia. pose proof (fval_lt1 k Hk). nia. }
  destruct (Z.eq_dec j k) as [->|NE]; [apply R1; exact U|].
  destruct L as [->|L]; [lia|].
  assert (j = k - 1).
  { destruct (Z.eq_dec j (k - 1)); auto. exfalso. pose proof (fval_le (j + 1) (k - 1) ltac:(lia) ltac:(lia)). pose proof (fval_lt (k - 1) k ltac:(lia) ltac:(lia)). nia. }
  subst j. replace (k - 1 + 1) with k in * by lia. apply R2. exact L.
Qed.
Lemma fround_ge a b k : 0 <= a -> 0 < b -> 0 <= k -> fval p k * b <= a -> k <= fround p a b.
Proof.
  intros Ha Hb Hk H. destruct (fround_parts a b Ha Hb) as (j & Hj & (J1 & J2) & R & _ & _).
  assert (k < j + 1). { apply fval_lt_inv; try lia. nia. }
  lia.
Qed.
Lemma fround_le a b k : 0 <= a -> 0 < b -> 0 <= k -> a <= fval p k * b -> fround p a b <= k.
Proof.
  intros Ha Hb Hk H. destruct (fround_parts a b Ha Hb) as (j & Hj & (J1 & J2) & R & R1 & _).
  assert (j <= k). { destruct (Z.lt_ge_cases k j); [|lia]. pose proof (fval_lt k j Hk). nia. }
  destruct (Z.eq_dec j k) as [->|]; [|lia]. rewrite R1; [lia|]. pose proof (fval_lt1 k Hk). nia.
Qed.
Lemma fround_exact k b : 0 <= k -> 0 < b -> fround p (fval p k * b) b = k.
Proof.
  intros Hk Hb. pose proof (fval_nonneg k Hk).
  apply Z.le_antisymm; [apply fround_le|apply fround_ge]; try lia; nia.
Qed.
Lemma fround_error a b : 0 <= a -> 0 < b -> 2 ^ p * b <= a -> 2 * 2 ^ p * Z.abs (fval p (fround p a b) * b - a) <= a.
Proof.
  intros Ha Hb H. destruct (fround_parts a b Ha Hb) as (j & Hj & (J1 & J2) & R & _ & _).
  assert (G : 2 ^ p <= fval p j).
  { assert (E : fval p (2 ^ p) = 2 ^ p). { pose proof (fval_low 0 (2 ^ p)) as E. rewrite Z.mul_0_l, Z.add_0_l, Z.pow_0_r, Z.mul_1_r in E. apply E. unfold split_rank; pose proof pow_p; pose proof pow_p1; lia. }
    assert (2 ^ p < j + 1). { pose proof pow_p. apply fval_lt_inv; try lia. rewrite E. nia. }
    rewrite <- E. apply fval_le; pose proof pow_p; lia. }
  pose proof (gap_small j Hj G) as GS. pose proof pow_p.
  assert (K : 2 * Z.abs (fval p (fround p a b) * b - a) <= (fval p (j + 1) - fval p j) * b).
  { destruct R as [[-> R]|[-> R]]; lia. }
  nia.
Qed.
End P.

(** ** Reading back a decimal close to a float *)
Lemma close_to_float k A B : 0 <= k -> 0 < B -> 0 <= A ->
  100000000 * (2 * Z.abs (A - fval 23 k * B)) <= 5 * (fval 23 k * B) -> fround 23 A B = k.
Proof.
  intros Hk HB HA H. pose proof (fval_nonneg 23 ltac:(lia) k Hk).
  pose proof (gap_up 23 ltac:(lia) k Hk) as GU. change (2 ^ (23 + 1)) with 16777216 in GU.
  pose proof (fval_lt1 23 ltac:(lia) k Hk).
  apply fround_unique; try lia.
  - nia.
  - destruct (Z.eq_dec k 0) as [->|NE]; [auto|right]. pose proof (gap_down 23 ltac:(lia) k ltac:(lia)) as GD. change (2 ^ (23 + 1)) with 16777216 in GD.
    pose proof (fval_lt 23 ltac:(lia) (k - 1) k ltac:(lia) ltac:(lia)). nia.
Qed.
Lemma close_to_float_double k A B s : 0 <= k -> 0 < B -> 0 <= A -> 2 ^ 60 <= s ->
  100000000 * (2 * Z.abs (A - fval 23 k * B)) <= fval 23 k * B -> fround 23 (fval 52 (fround 52 (A * s) B)) s = k.
Proof.
  intros Hk HB HA Hs H. pose proof (fval_nonneg 23 ltac:(lia) k Hk) as NN.
  change (2 ^ 60) with 1152921504606846976 in Hs.
  destruct (Z.eq_dec k 0) as [->|NE].
  { rewrite fval_0 in H by lia. assert (A = 0) by lia. subst. rewrite Z.mul_0_l.
    assert (E : fround 52 0 B = 0). { pose proof (fround_exact 52 ltac:(lia) 0 B ltac:(lia) HB) as E. rewrite fval_0 in E by lia. exact E. }
    rewrite E, fval_0 by lia.
    pose proof (fround_exact 23 ltac:(lia) 0 s ltac:(lia) ltac:(lia)) as E2. rewrite fval_0 in E2 by lia. exact E2. }
  assert (V1 : 1 <= fval 23 k). { pose proof (fval_lt 23 ltac:(lia) 0 k ltac:(lia) ltac:(lia)). rewrite fval_0 in * by lia. lia. }
  set (v := fval 23 k) in *. set (D := fval 52 (fround 52 (A * s) B)).
  assert (A1 : v * B <= 2 * A /\ A <= 2 * (v * B)) by nia.
  assert (DN : 0 <= D). { apply fval_nonneg; [lia|]. assert (0 <= A * s) by nia. apply fround_ge; try lia. rewrite fval_0 by lia. lia. }
  assert (ER : 2 * 2 ^ 52 * Z.abs (D * B - A * s) <= A * s).
  { assert (0 <= A * s) by nia. apply fround_error; try lia. change (2 ^ 52) with 4503599627370496. nia. }
  change (2 * 2 ^ 52) with 9007199254740992 in ER.
  apply close_to_float; try lia. fold v.
  (* 2e8 |D - v s| <= 5 v s *)
  assert (T : Z.abs (D * B - v * s * B) <= Z.abs (D * B - A * s) + s * Z.abs (A - v * B)).
  { replace (D * B - v * s * B) with ((D * B - A * s) + s * (A - v * B)) by ring.
    eapply Z.le_trans; [apply Z.abs_triangle|]. rewrite Z.abs_mul, (Z.abs_eq s) by lia. lia. }
  assert (U1 : 100000000 * (2 * (s * Z.abs (A - v * B))) <= s * (v * B)) by nia.
  assert (U2 : 100000000 * (2 * Z.abs (D * B - A * s)) <= s * (v * B)).
  { assert (A * s <= 2 * (v * B) * s) by nia. nia. }
  assert (W : 100000000 * (2 * Z.abs (D * B - v * s * B)) <= 5 * (v * s * B)) by lia.
  replace (D * B - v * s * B) with ((D - v * s) * B) in W by ring. rewrite Z.abs_mul, (Z.abs_eq B) in W by lia. nia.
Qed.
(** Only the quotient matters. *)
Lemma close_scale v A B A' B' c : 0 < B -> 0 < B' -> A * B' = A' * B -> 0 <= c ->
  c * (2 * Z.abs (A - v * B)) <= v * B -> c * (2 * Z.abs (A' - v * B')) <= v * B'.
Proof.
  intros HB HB' E Hc H.
  assert (K : B * Z.abs (A' - v * B') = B' * Z.abs (A - v * B)).
  { rewrite <- (Z.abs_eq B) at 1 by lia. rewrite <- (Z.abs_eq B') at 2 by lia. rewrite <- !Z.abs_mul. f_equal. nia. }
  assert (B * (c * (2 * Z.abs (A' - v * B'))) <= B * (v * B')); [|nia].
  replace (B * (c * (2 * Z.abs (A' - v * B')))) with (c * 2 * (B * Z.abs (A' - v * B'))) by ring. rewrite K. nia.
Qed.

(** ** Digits *)
Lemma digits_count fuel : forall n, 0 < n < 2 ^ Z.of_nat fuel ->
  10 ^ (Z.of_nat (length (nat_digits fuel n)) - 1) <= n < 10 ^ Z.of_nat (length (nat_digits fuel n)).
Proof.
  induction fuel as [|f IH]; intros n H; [cbn in H; lia|]. cbn [nat_digits]. destruct (Z.ltb_spec n 10) as [L|L].
  - cbn [length]. change (Z.of_nat 1) with 1. change (10 ^ (1 - 1)) with 1. change (10 ^ 1) with 10. lia.
  - rewrite app_length. cbn [length]. rewrite Nat2Z.inj_succ, Z.pow_succ_r in H by lia.
    assert (D : 0 < n / 10 < 2 ^ Z.of_nat f).
    { split; [apply Z.div_str_pos; lia|]. apply Z.div_lt_upper_bound; lia. }
    specialize (IH _ D). set (l := Z.of_nat (length (nat_digits f (n / 10)))) in *.
    assert (1 <= l).
    { destruct (Z.le_gt_cases 1 l); auto. assert (l = 0) as E by (unfold l in *; lia). rewrite E in IH. change (10 ^ 0) with 1 in IH. lia. }
    rewrite Nat2Z.inj_add. change (Z.of_nat 1) with 1. fold l. replace (l + 1 - 1) with (l - 1 + 1) by lia. rewrite !Z.pow_add_r by lia. change (10 ^ 1) with 10.
    pose proof (Z.div_mod n 10 ltac:(lia)). pose proof (Z.mod_pos_bound n 10 ltac:(lia)). lia.
Qed.
Lemma show_pos n : 0 < n -> digits (show_Z n) /\ show_Z n <> [] /\ dvalue (show_Z n) = n /\
  10 ^ (n_digits n - 1) <= n < 10 ^ n_digits n.
Proof.
  intros H. unfold n_digits, show_Z. destruct (Z.ltb_spec n 0); [lia|].
  assert (F : 0 < n < 2 ^ Z.of_nat (S (Z.to_nat (Z.log2 n)))).
  { split; [lia|]. rewrite Nat2Z.inj_succ, Z2Nat.id by apply Z.log2_nonneg. apply Z.log2_spec; lia. }
  destruct (nat_digits_spec (S (Z.to_nat (Z.log2 n))) n ltac:(lia) ltac:(lia)) as (A & B & C).
  split; [exact A|]. split; [exact B|]. split; [exact C|]. apply digits_count. exact F.
Qed.
Lemma n_digits_pos n : 0 < n -> 1 <= n_digits n.
Proof. intros H. destruct (show_pos n H) as (_ & NE & _). unfold n_digits. destruct (show_Z n); [congruence|cbn; lia]. Qed.
Lemma n_digits_is n d : 0 <= d -> 10 ^ d <= n < 10 ^ (d + 1) -> n_digits n = d + 1.
Proof.
  intros Hd H. assert (0 < n) by (assert (0 < 10 ^ d) by (apply Z.pow_pos_nonneg; lia); lia).
  destruct (show_pos n ltac:(lia)) as (_ & _ & _ & B). pose proof (n_digits_pos n ltac:(lia)).
  destruct (Z.lt_trichotomy (n_digits n) (d + 1)) as [L|[L|L]]; auto; exfalso.
  - assert (10 ^ n_digits n <= 10 ^ d) by (apply Z.pow_le_mono_r; lia). lia.
  - assert (10 ^ (d + 1) <= 10 ^ (n_digits n - 1)) by (apply Z.pow_le_mono_r; lia). lia.
Qed.

(** 10^x * b and a, with the powers on the side where they are integers. *)
Definition up (x : Z) : Z := 10 ^ Z.max 0 x.
Lemma up_pos x : 0 < up x.
Proof. apply Z.pow_pos_nonneg; lia. Qed.
Lemma up_shift x y : 0 <= y -> up (x + y) * up (- x) = 10 ^ y * (up x * up (- (x + y))).
Proof. intros H. unfold up. rewrite <- !Z.pow_add_r by lia. f_equal. lia. Qed.
Lemma exponent10_ok a b : 0 < a -> 0 < b ->
  b * up (exponent10 a b) <= a * up (- exponent10 a b) /\ a * up (- (exponent10 a b + 1)) < b * up (exponent10 a b + 1).
Proof.
  intros Ha Hb. destruct (show_pos a Ha) as (_ & _ & _ & A1 & A2). destruct (show_pos b Hb) as (_ & _ & _ & B1 & B2).
  pose proof (n_digits_pos a Ha). pose proof (n_digits_pos b Hb). set (da := n_digits a) in *. set (db := n_digits b) in *.
  unfold exponent10. fold da db. set (l := da - db).
  fold (up l) (up (- l)).
  assert (HI : a * up (- (l + 1)) < b * up (l + 1)).
  { assert (T : 10 ^ da * up (- (l + 1)) <= 10 ^ (db - 1) * up (l + 1)).
    { unfold up. rewrite <- !Z.pow_add_r by lia. apply Z.pow_le_mono_r; lia. }
    pose proof (up_pos (l + 1)). pose proof (up_pos (- (l + 1))). nia. }
  assert (LO : b * up (l - 1) <= a * up (- (l - 1))).
  { assert (T : 10 ^ db * up (l - 1) <= 10 ^ (da - 1) * up (- (l - 1))).
    { unfold up. rewrite <- !Z.pow_add_r by lia. apply Z.pow_le_mono_r; lia. }
    pose proof (up_pos (l - 1)). pose proof (up_pos (- (l - 1))). nia. }
  destruct (Z.leb_spec (b * up l) (a * up (- l))) as [G|G].
  - split; assumption.
  - split; [exact LO|]. replace (l - 1 + 1) with l by lia. exact G.
Qed.

(** The nine digits: in range, and close. *)
Lemma nine_ok a b : 0 < a -> 0 < b -> exists m x, nine_digits a b = (m, x) /\ 10 ^ 8 <= m < 10 ^ 9 /\
  100000000 * (2 * Z.abs (m * (b * up (x - 8)) - a * up (8 - x))) <= a * up (8 - x).
Proof.
  intros Ha Hb. unfold nine_digits. destruct (exponent10_ok a b Ha Hb) as [L U]. set (x := exponent10 a b) in *.
  fold (up (8 - x)) (up (x - 8)). set (A := a * up (8 - x)). set (B := b * up (x - 8)).
  pose proof (up_pos (8 - x)). pose proof (up_pos (x - 8)). pose proof (up_pos x). pose proof (up_pos (- x)).
  assert (PA : 0 < A) by (unfold A; nia). assert (PB : 0 < B) by (unfold B; nia).
  assert (L8 : 10 ^ 8 * B <= A).
  { assert (E : up x * up (8 - x) = 10 ^ 8 * (up (x - 8) * up (- x))).
    { pose proof (up_shift (x - 8) 8 ltac:(lia)) as S. replace (x - 8 + 8) with x in S by lia. replace (- (x - 8)) with (8 - x) in S by lia. exact S. }
    unfold A, B. pose proof up_pos. assert (b * up x * up (8 - x) <= a * up (- x) * up (8 - x)) by nia.
    assert (up (- x) * (10 ^ 8 * (b * up (x - 8))) <= up (- x) * (a * up (8 - x))); [|nia].
    replace (up (- x) * (10 ^ 8 * (b * up (x - 8)))) with (b * (up x * up (8 - x))) by (rewrite E; ring). lia. }
  assert (U9 : A < 10 ^ 9 * B).
  { assert (E : up (x + 1) * up (8 - x) = 10 ^ 9 * (up (x - 8) * up (- (x + 1)))).
    { pose proof (up_shift (x - 8) 9 ltac:(lia)) as S. replace (x - 8 + 9) with (x + 1) in S by lia. replace (- (x - 8)) with (8 - x) in S by lia. exact S. }
    pose proof (up_pos (x + 1)). pose proof (up_pos (- (x + 1))). unfold A, B.
    assert (up (- (x + 1)) * (a * up (8 - x)) < up (- (x + 1)) * (10 ^ 9 * (b * up (x - 8)))); [|nia].
    replace (up (- (x + 1)) * (10 ^ 9 * (b * up (x - 8)))) with (b * (up (x + 1) * up (8 - x))) by (rewrite E; ring). nia. }
  change (10 ^ 8) with 100000000 in *. change (10 ^ 9) with 1000000000 in *.
  pose proof (round_even_near A B PB) as NR. destruct (round_even_cases A B PB) as (RC & _).
  pose proof (Z.div_mod A B ltac:(lia)) as DM. pose proof (Z.mod_pos_bound A B ltac:(lia)) as MB.
  assert (Q1 : 100000000 <= A / B) by (apply Z.div_le_lower_bound; lia).
  assert (Q2 : A / B < 1000000000) by (apply Z.div_lt_upper_bound; lia).
  set (m := round_even A B) in *. destruct (Z.eqb_spec m 1000000000) as [E|E].
  - exists 100000000, (x + 1). split; auto. split; [lia|].
    (* the same number, written with the next exponent *)
    assert (S1 : up (x + 1 - 8) * up (8 - x) = 10 * (up (x - 8) * up (8 - (x + 1)))).
    { pose proof (up_shift (x - 8) 1 ltac:(lia)) as S. replace (x - 8 + 1) with (x + 1 - 8) in S by lia. replace (- (x - 8)) with (8 - x) in S by lia.
      replace (- (x + 1 - 8)) with (8 - (x + 1)) in S by lia. exact S. }
    set (B' := b * up (x + 1 - 8)). set (A' := a * up (8 - (x + 1))).
    assert (S2 : A * B' = A' * (10 * B)).
    { unfold A, A', B, B'. replace (a * up (8 - x) * (b * up (x + 1 - 8))) with (a * b * (up (x + 1 - 8) * up (8 - x))) by ring. rewrite S1. ring. }
    assert (0 < B') by (unfold B'; pose proof (up_pos (x + 1 - 8)); nia). assert (0 < A') by (unfold A'; pose proof (up_pos (8 - (x + 1))); nia).
    assert (K : 100000000 * (2 * Z.abs (100000000 * (10 * B) - 1 * A)) <= 1 * A) by lia.
    assert (T : A * Z.abs (100000000 * B' - A') = A' * Z.abs (100000000 * (10 * B) - A)).
    { rewrite <- (Z.abs_eq A) at 1 by lia. rewrite <- (Z.abs_eq A') at 2 by lia. rewrite <- !Z.abs_mul. f_equal. nia. }
    apply (Z.mul_le_mono_pos_l _ _ A PA).
    replace (A * (100000000 * (2 * Z.abs (100000000 * B' - A')))) with (200000000 * (A * Z.abs (100000000 * B' - A'))) by ring. rewrite T.
    rewrite !Z.mul_1_l in K. set (z := Z.abs (100000000 * (10 * B) - A)) in *. clearbody z.
    replace (200000000 * (A' * z)) with (A' * (100000000 * (2 * z))) by ring. rewrite (Z.mul_comm A A'). apply Z.mul_le_mono_nonneg_l; lia.
  - exists m, x. split; auto. split; [lia|]. lia.
Qed.

(** ** Text *)
Lemma digits_app a b : digits a -> digits b -> digits (a ++ b).
Proof. intros H1 H2. apply Forall_app. split; auto. Qed.
Lemma dvalue_app a b : dvalue (a ++ b) = dvalue a * 10 ^ Z.of_nat (length b) + dvalue b.
Proof.
  induction a as [|c a IH]; cbn [app dvalue]; [lia|]. rewrite IH, app_length, Nat2Z.inj_add, Z.pow_add_r by lia. ring.
Qed.
Lemma dvalue_zeros n : dvalue (repeat "0"%char n) = 0.
Proof. induction n as [|n IH]; [reflexivity|]. change (0 * 10 ^ Z.of_nat (length (repeat "0"%char n)) + dvalue (repeat "0"%char n) = 0). rewrite IH. lia. Qed.
Lemma digits_zeros n : digits (repeat "0"%char n).
Proof. induction n; constructor; auto. cbn. auto. Qed.
Lemma drop_zeros_split t : exists n, t = repeat "0"%char n ++ drop_zeros t.
Proof.
  induction t as [|c t IH]; [exists 0%nat; reflexivity|].
  destruct (ascii_dec c "0") as [->|NE].
  - destruct IH as (n & E). exists (S n). cbn [drop_zeros repeat app]. f_equal. exact E.
  - exists 0%nat. destruct c as [[] [] [] [] [] [] [] []]; try reflexivity. congruence.
Qed.
Lemma rev_zeros n : rev (repeat "0"%char n) = repeat "0"%char n.
Proof.
  induction n as [|n IH]; cbn [repeat rev]; auto. rewrite IH. clear IH. induction n as [|n IH]; cbn [repeat app]; congruence.
Qed.
Lemma strip_split t : exists n, t = strip_zeros t ++ repeat "0"%char n.
Proof.
  destruct (drop_zeros_split (rev t)) as (n & E). exists n. unfold strip_zeros.
  apply (f_equal (@rev ascii)) in E. rewrite rev_involutive, rev_app_distr, rev_zeros in E. exact E.
Qed.
(** A decimal with the fraction [fp0], whose trailing zeros are dropped. *)
Lemma stripped_numeral sg neg ip fp0 ex e : sign_text sg neg -> digits ip -> ip <> [] -> digits fp0 -> exponent_text ex e ->
  exists m s, numeral (sg ++ ip ++ with_dot (strip_zeros fp0) ++ ex) (Dec neg m (e - Z.of_nat (length fp0) + s)) /\
    0 <= s /\ m * 10 ^ s = dvalue (ip ++ fp0) /\ 0 <= m.
Proof.
  intros S D NE DF X. destruct (strip_split fp0) as (n & E). set (fp := strip_zeros fp0) in *. clearbody fp.
  assert (DP : digits fp). { unfold digits in *. rewrite E in DF. apply Forall_app in DF. tauto. }
  exists (dvalue (ip ++ fp)), (Z.of_nat n). split.
  - replace (e - Z.of_nat (length fp0) + Z.of_nat n) with (e - Z.of_nat (length fp)).
    2:{ rewrite E, app_length, repeat_length. lia. }
    destruct fp as [|c fp'].
    + cbn [with_dot app]. pose proof (numeral_intro sg neg ip [] [] ex e) as H. cbn [app] in H. apply H; auto.
      rewrite app_nil_r. exact NE.
    + cbn [with_dot]. replace (("."%char :: c :: fp') ++ ex) with (lit "." ++ (c :: fp') ++ ex) by reflexivity.
      apply numeral_intro; auto. destruct ip; [congruence|discriminate].
  - split; [lia|]. split.
    + rewrite E, app_assoc, (dvalue_app (ip ++ fp) (repeat _ n)), dvalue_zeros, repeat_length. lia.
    + apply dvalue_nonneg, digits_app; auto.
Qed.
Lemma show_exp_ok x : exponent_text (show_exp x) x.
Proof.
  unfold show_exp.
  assert (K : exists ds, (if n_digits (Z.abs x) <? 2 then "0"%char :: show_Z (Z.abs x) else show_Z (Z.abs x)) = ds /\ digits ds /\ ds <> [] /\ dvalue ds = Z.abs x).
  { destruct (Z.eq_dec x 0) as [->|NE].
    { exists (lit "00"). split; [reflexivity|]. split; [repeat constructor; cbn; auto|]. split; [discriminate|reflexivity]. }
    destruct (show_pos (Z.abs x) ltac:(lia)) as (D & N & V & _). destruct (n_digits (Z.abs x) <? 2).
    - eexists. split; [reflexivity|]. split; [constructor; auto; cbn; auto|]. split; [discriminate|]. cbn [dvalue]. rewrite V.
      change (Z.of_nat (nat_of_ascii "0") - 48) with 0. lia.
    - eexists. split; [reflexivity|]. auto. }
  destruct K as (ds & -> & D & N & V). destruct (Z.ltb_spec x 0) as [L|L].
  - pose proof (exp_some "e" (lit "-") true ds ltac:(cbn; auto) sign_minus D N) as H. rewrite V in H. cbn [app lit list_ascii_of_string] in H.
    replace (- Z.abs x) with x in H by lia. exact H.
  - pose proof (exp_some "e" (lit "+") false ds ltac:(cbn; auto) sign_plus D N) as H. rewrite V in H. cbn [app lit list_ascii_of_string] in H.
    replace (Z.abs x) with x in H by lia. exact H.
Qed.
Lemma show_g_numeral sg neg a b : sign_text sg neg -> 0 < a -> 0 < b ->
  exists m x s m0, nine_digits a b = (m, x) /\ numeral (sg ++ show_g a b) (Dec neg m0 (x - 8 + s)) /\ 0 <= s /\ m0 * 10 ^ s = m /\ 0 <= m0.
Proof.
  intros S Ha Hb. destruct (nine_ok a b Ha Hb) as (m & x & E & R & _). unfold show_g. rewrite E.
  destruct (show_pos m ltac:(lia)) as (D & N & V & _).
  assert (L9 : length (show_Z m) = 9%nat).
  { pose proof (n_digits_is m 8 ltac:(lia) ltac:(exact R)) as L. unfold n_digits in L. lia. }
  assert (FS : forall i, firstn i (show_Z m) ++ skipn i (show_Z m) = show_Z m) by (intros; apply firstn_skipn).
  assert (DF : forall i, digits (firstn i (show_Z m))) by (intros i; unfold digits in *; rewrite <- (FS i) in D; apply Forall_app in D; tauto).
  assert (DS : forall i, digits (skipn i (show_Z m))) by (intros i; unfold digits in *; rewrite <- (FS i) in D; apply Forall_app in D; tauto).
  assert (NF : forall i, (0 < i)%nat -> firstn i (show_Z m) <> []) by (intros i Hi; destruct i; [lia|]; destruct (show_Z m); [congruence|discriminate]).
  destruct ((x <? -4) || (9 <=? x)) eqn:C.
  - destruct (stripped_numeral sg neg _ _ _ x S (DF 1%nat) (NF 1%nat ltac:(lia)) (DS 1%nat) (show_exp_ok x)) as (m0 & s & Q1 & Q2 & Q3 & Q4).
    rewrite FS, V in Q3. rewrite skipn_length, L9 in Q1. exists m, x, s, m0. auto.
  - apply orb_false_elim in C as [C1 C2]. apply Z.ltb_ge in C1. apply Z.leb_gt in C2. destruct (Z.leb_spec 0 x) as [G|G].
    + set (i := Z.to_nat (x + 1)).
      destruct (stripped_numeral sg neg _ _ [] 0 S (DF i) (NF i ltac:(lia)) (DS i) exp_none) as (m0 & s & Q1 & Q2 & Q3 & Q4).
      rewrite FS, V in Q3. rewrite skipn_length, L9 in Q1. rewrite app_nil_r in Q1. exists m, x, s, m0.
      replace (x - 8 + s) with (0 - Z.of_nat (9 - i) + s) by lia. auto.
    + set (n := Z.to_nat (- x - 1)).
      destruct (stripped_numeral sg neg ["0"%char] (repeat "0"%char n ++ show_Z m) [] 0 S) as (m0 & s & Q1 & Q2 & Q3 & Q4).
      { repeat constructor; cbn; auto. } { discriminate. } { apply digits_app; auto. apply digits_zeros. } { constructor. }
      rewrite app_length, repeat_length, L9 in Q1. rewrite app_nil_r in Q1. cbn [app] in Q1, Q3. cbn [dvalue] in Q3. rewrite dvalue_app, dvalue_zeros, V in Q3.
      change (Z.of_nat (nat_of_ascii "0") - 48) with 0 in Q3. exists m, x, s, m0.
      replace (x - 8 + s) with (0 - Z.of_nat (n + 9) + s) by lia. repeat split; auto; lia.
Qed.

(** What is printed for a positive float, as a fraction, is close to it. *)
Lemma printed_close k m0 m x s : 0 < k -> nine_digits (fval 23 k) (2 ^ 149) = (m, x) -> 0 <= s -> m0 * 10 ^ s = m -> 0 <= m0 ->
  0 < dec_den (x - 8 + s) /\ 0 <= dec_num m0 (x - 8 + s) /\
  100000000 * (2 * Z.abs (dec_num m0 (x - 8 + s) * 2 ^ 149 - fval 23 k * dec_den (x - 8 + s))) <= fval 23 k * dec_den (x - 8 + s).
Proof.
  intros Hk E Hs Em Hm.
  assert (PV : 0 < fval 23 k). { pose proof (fval_lt 23 ltac:(lia) 0 k ltac:(lia) ltac:(lia)). rewrite fval_0 in * by lia. lia. }
  assert (P2 : 0 < 2 ^ 149) by reflexivity.
  destruct (nine_ok _ _ PV P2) as (m' & x' & E' & _ & C). rewrite E in E'. injection E' as <- <-. generalize dependent (2 ^ 149). intros u E P2 C.
  set (v := fval 23 k) in *. unfold dec_num, dec_den. fold (up (x - 8 + s)) (up (- (x - 8 + s))).
  pose proof (up_pos (x - 8 + s)). pose proof (up_pos (- (x - 8 + s))). pose proof (up_pos (x - 8)). pose proof (up_pos (8 - x)).
  split; [assumption|]. split; [nia|].
  apply (close_scale v (m * (u * up (x - 8))) (up (8 - x)) _ _ 100000000); try assumption; try lia.
  pose proof (up_shift (x - 8) s Hs) as US. replace (- (x - 8)) with (8 - x) in US by lia.
  rewrite <- Em. 
  replace (m0 * 10 ^ s * (u * up (x - 8)) * up (- (x - 8 + s))) with (m0 * u * (10 ^ s * (up (x - 8) * up (- (x - 8 + s))))) by ring.
  rewrite <- US. ring.
Qed.

Lemma print_and_read (v : f32) : finite v -> exists m e, numeral (show_f32 v) (Dec (match v with Fin neg _ => neg | _ => false end) m e) /\
  read_float (Dec (match v with Fin neg _ => neg | _ => false end) m e) = Some v /\
  read_double_float (Dec (match v with Fin neg _ => neg | _ => false end) m e) = v.
Proof.
  destruct v as [neg k| |]; cbn [finite]; try tauto. intros [H0 H1].
  assert (SG : sign_text (if neg then lit "-" else []) neg) by (destruct neg; constructor).
  cbn [show_f32]. destruct (Z.eqb_spec k 0) as [->|NE].
  - exists 0, 0. split.
    + pose proof (numeral_intro _ neg (lit "0") [] [] [] 0 SG) as H. cbn [app] in H. rewrite !app_nil_r in *. apply H; [repeat constructor; cbn; auto|constructor|discriminate|right; auto|constructor].
    + split; vm_compute; destruct neg; reflexivity.
  - destruct (show_g_numeral _ neg (fval 23 k) (2 ^ 149) SG) as (m & x & s & m0 & E & NU & Hs & Em & Hm).
    { pose proof (fval_lt 23 ltac:(lia) 0 k ltac:(lia) ltac:(lia)). rewrite fval_0 in * by lia. lia. } { reflexivity. }
    destruct (printed_close k m0 m x s ltac:(lia) E Hs Em Hm) as (D & Nn & C).
    exists m0, (x - 8 + s). split; [exact NU|]. set (e := x - 8 + s) in *.
    split.
    + unfold read_float. rewrite (close_to_float k); auto; try lia.
      destruct (Z.ltb_spec k f32_top); [reflexivity|lia].
    + unfold read_double_float.
      replace (dec_num m0 e * 2 ^ 1074) with (dec_num m0 e * 2 ^ 149 * 2 ^ 925) by (rewrite <- Z.mul_assoc, <- Z.pow_add_r by lia; reflexivity).
      assert (FD : fround 23 (fval 52 (fround 52 (dec_num m0 e * 2 ^ 149 * 2 ^ 925) (dec_den e))) (2 ^ 925) = k).
      { apply close_to_float_double; auto; lia. }
      rewrite FD. unfold f32_of_rank. destruct (Z.ltb_spec k f32_top); [|lia].
      destruct (Z.ltb_spec (fround 52 (dec_num m0 e * 2 ^ 149 * 2 ^ 925) (dec_den e)) f64_top) as [G|G]; [reflexivity|exfalso].
      (* a double that large is no float *)
      assert (T0 : 0 <= f64_top) by (vm_compute; discriminate). assert (T1 : 0 <= f32_top) by (vm_compute; discriminate).
      assert (T2 : fval 23 f32_top * 2 ^ 925 <= fval 52 f64_top) by (vm_compute; discriminate).
      assert (f32_top <= k); [|lia]. rewrite <- FD. apply fround_ge; [lia|apply fval_nonneg; lia|apply Z.pow_pos_nonneg; lia|exact T1|].
      eapply Z.le_trans; [exact T2|]. apply fval_le; lia.
Qed.
