(** float32 arithmetic is an instance of [float_like]. *)
From Coq Require Import List ZArith Reals Lia Lra Psatz Bool.
From Verif Require Import Base Num M_Float L_Float L_Float2 L_Rounding L_Rounding2 S_Rounding L_MetricsR M_Metrics S_MetricError L_MetricError L_MetricError3.
Import ListNotations.
Local Open Scope R_scope.
(* large powers of two must not be computed *)
Local Opaque pow.

Lemma unscaled z : (0 <= z <= 2 ^ 24)%Z -> exists k, (0 <= k)%Z /\ fval 23 k = (z * 2 ^ 149)%Z.
Proof.
  intros H. destruct (Z.eq_dec z 0) as [->|Z0]; [exists 0%Z; split; [lia|reflexivity]|].
  destruct (Z.eq_dec z (2 ^ 24)) as [->|Z1].
  { exists (150 * 2 ^ 23 + 2 ^ 23)%Z. split; [lia|reflexivity]. }
  pose proof (Z.log2_spec z ltac:(lia)) as [L1 L2]. pose proof (Z.log2_nonneg z) as L0.
  assert (L3 : (Z.log2 z < 24)%Z) by (apply Z.log2_lt_pow2; lia).
  set (a := Z.log2 z) in *. rewrite Z.pow_succ_r in L2 by exact L0.
  assert (P : (2 ^ a * 2 ^ (23 - a) = 2 ^ 23)%Z) by (rewrite <- Z.pow_add_r by lia; f_equal; lia).
  pose proof (Z.pow_pos_nonneg 2 (23 - a) ltac:(lia) ltac:(lia)) as P0.
  exists ((126 + a) * 2 ^ 23 + z * 2 ^ (23 - a))%Z. split; [nia|].
  rewrite (fval_low 23 ltac:(lia) (126 + a) (z * 2 ^ (23 - a))).
  - rewrite <- Z.mul_assoc, <- Z.pow_add_r by lia. f_equal. f_equal. lia.
  - unfold split_rank. change (2 ^ (23 + 1))%Z with (2 * 2 ^ 23)%Z. nia.
Qed.
Lemma count_exact z : (0 <= z <= 2 ^ 24)%Z -> real32 (sround (z * 2 ^ 149)) = IZR z.
Proof.
  intros H. destruct (unscaled z H) as (k & Hk & E). rewrite <- E. rewrite <- (sval_pos k Hk), sround_exact, real32_val. unfold L_Rounding2.val.
  rewrite (sval_pos k Hk), E, mult_IZR, IZR_unit. pose proof unit_pos. field.
Qed.

(** The float32 nearest to the multiple of 2^-149 just below a real number. *)
Definition of_real (x : R) : Z := sround (Int_part (x * 2 ^ 149)).
(** float32 arithmetic with functions that are not always correctly rounded. *)
Definition F32M : num :=
  mkNum Z 0%Z 1065353216%Z (nadd (n:=F32N)) (nsub (n:=F32N)) (nmul (n:=F32N)) (ndiv (n:=F32N)) (nleb (n:=F32N)) (nltb (n:=F32N)) (neqb (n:=F32N))
        (nofZ (n:=F32N)) (fun x => of_real (Rexp2 (real32 x))) (fun x => of_real (Rlog2 (real32 x))) (fun x => of_real (sqrt (real32 x)))
        (fun x i => of_real (real32 x ^ i)) (fun _ => false) (fun x => x).

Lemma sround_sign n : ((0 <= n -> 0 <= sval (sround n)) /\ (n <= 0 -> sval (sround n) <= 0))%Z.
Proof. pose proof (sround_err n). lia. Qed.
Lemma srat_sign a b : b <> 0%Z -> ((0 <= a * b -> 0 <= sval (srat a b)) /\ (a * b <= 0 -> sval (srat a b) <= 0))%Z.
Proof.
  intros Hb. pose proof (srat_nearest a b 0 Hb) as H. change (sval 0) with 0%Z in H. rewrite Z.mul_0_l in H.
  split; intros S.
  - destruct (Z.le_gt_cases 0 (sval (srat a b))) as [|C]; [assumption|]. nia.
  - destruct (Z.le_gt_cases (sval (srat a b)) 0) as [|C]; [assumption|]. nia.
Qed.
Lemma real_sign k : (0 <= real32 k <-> (0 <= sval k)%Z) /\ (real32 k <= 0 <-> (sval k <= 0)%Z).
Proof.
  rewrite real32_val. unfold L_Rounding2.val. pose proof unit_pos as P. assert (Q : 0 < / 2 ^ 149) by (apply Rinv_0_lt_compat; exact P).
  unfold Rdiv. split; split; intros H.
  - apply le_IZR. nra.
  - apply IZR_le in H. nra.
  - apply le_IZR. nra.
  - apply IZR_le in H. nra.
Qed.
Lemma real_order a b : (sval a <= sval b)%Z <-> real32 a <= real32 b.
Proof.
  rewrite !real32_val. unfold L_Rounding2.val. pose proof unit_pos as P. assert (Q : 0 < / 2 ^ 149) by (apply Rinv_0_lt_compat; exact P).
  unfold Rdiv. split; intros H.
  - apply IZR_le in H. nra.
  - apply le_IZR. nra.
Qed.

Definition u32 : R := 2 * roundoff.
Definition eta32 : R := 4 * tiny.
Lemma roundoff_small : roundoff <= / 2 ^ 10.
Proof. unfold roundoff. apply Rinv_le_contravar; [apply pow_lt; lra|]. apply Rle_pow; [lra|lia]. Qed.
Lemma tiny_small : tiny <= roundoff * roundoff /\ tiny <= / 4.
Proof.
  split.
  - unfold tiny, roundoff. rewrite <- Rinv_mult, <- pow_add. apply Rinv_le_contravar; [apply pow_lt; lra|]. apply Rle_pow; [lra|lia].
  - unfold tiny. replace 4 with (2 ^ 2) by ring. apply Rinv_le_contravar; [apply pow_lt; lra|]. apply Rle_pow; [lra|lia].
Qed.

Lemma of_real_below x : 0 <= x -> x - 2 * tiny <= IZR (Int_part (x * 2 ^ 149)) / 2 ^ 149 <= x /\ (0 <= Int_part (x * 2 ^ 149))%Z.
Proof.
  intros Hx. pose proof unit_pos as P. destruct (base_Int_part (x * 2 ^ 149)) as [A B]. set (n := Int_part (x * 2 ^ 149)) in *.
  assert (Q : 0 < / 2 ^ 149) by (apply Rinv_0_lt_compat; exact P).
  assert (E : x * 2 ^ 149 * / 2 ^ 149 = x) by (rewrite Rmult_assoc, Rinv_r by lra; ring).
  assert (T : 2 * tiny = / 2 ^ 149) by (rewrite tiny_unit; unfold Rdiv; lra).
  unfold Rdiv. split; [split|].
  - rewrite T. assert ((x * 2 ^ 149 - 1) * / 2 ^ 149 <= IZR n * / 2 ^ 149) by (apply Rmult_le_compat_r; lra). lra.
  - assert (IZR n * / 2 ^ 149 <= x * 2 ^ 149 * / 2 ^ 149) by (apply Rmult_le_compat_r; lra). lra.
  - assert (0 <= x * 2 ^ 149) by nra. assert (-1 < IZR n) by lra. apply lt_IZR in H0. lia.
Qed.
Lemma of_real_abs x : 0 <= x -> 0 <= real32 (of_real x) /\ Rabs (real32 (of_real x) - x) <= roundoff * x + 2 * tiny.
Proof.
  intros Hx. destruct (of_real_below x Hx) as [[A B] C]. unfold of_real. set (n := Int_part (x * 2 ^ 149)) in *.
  split; [apply real_sign; apply sround_sign; exact C|]. pose proof (round_real n) as E. pose proof roundoff_pos. pose proof tiny_pos.
  assert (0 <= IZR n / 2 ^ 149).
  { pose proof unit_pos as P. assert (0 < / 2 ^ 149) by (apply Rinv_0_lt_compat; exact P). apply IZR_le in C. unfold Rdiv. nra. }
  rewrite (Rabs_pos_eq (IZR n / 2 ^ 149)) in E by lra.
  set (z := IZR n / 2 ^ 149) in *. assert (roundoff * z <= roundoff * x) by nra.
  apply Rabs_le. revert E. unfold Rabs. destruct Rcase_abs; intros; lra.
Qed.
Lemma two_tiny k : (k <= 149)%nat -> 2 * tiny <= / 2 ^ k.
Proof.
  intros H. unfold tiny. replace (2 ^ 150) with (2 * 2 ^ 149) by (rewrite <- tech_pow_Rmult; reflexivity).
  rewrite Rinv_mult, <- Rmult_assoc, Rinv_r, Rmult_1_l by lra. apply Rinv_le_contravar; [apply pow_lt; lra|]. apply Rle_pow; [lra|lia].
Qed.
Lemma of_real_rel x : / 2 ^ 75 <= x -> rounded_up_to u32 0 x (real32 (of_real x)).
Proof.
  intros Hx. assert (P : 0 < / 2 ^ 75) by (apply Rinv_0_lt_compat, pow_lt; lra). pose proof roundoff_pos.
  destruct (of_real_abs x ltac:(lra)) as [A B]. pose proof tiny_pos.
  assert (T : 2 * tiny <= roundoff * x).
  { apply Rle_trans with (roundoff * / 2 ^ 75); [|apply Rmult_le_compat_l; lra].
    unfold roundoff. rewrite <- Rinv_mult, <- pow_add. apply two_tiny. lia. }
  split; [|split; [intros _; exact A|lra]]. rewrite (Rabs_pos_eq x) by lra. unfold u32. lra.
Qed.
Lemma one_small : / 2 ^ 75 <= 1.
Proof. rewrite <- Rinv_1. apply Rinv_le_contravar; [lra|]. apply pow_R1_Rle. lra. Qed.
Lemma Int_part_int z : Int_part (IZR z) = z.
Proof. destruct (base_Int_part (IZR z)) as [A B]. apply le_IZR in A. rewrite <- minus_IZR in B. apply Rgt_lt in B. apply (lt_IZR (-1)) in B. lia. Qed.
Lemma of_real_0 : real32 (of_real 0) = 0.
Proof.
  unfold of_real. rewrite Rmult_0_l, (Int_part_int 0). change (sround 0) with 0%Z. rewrite real32_val. unfold L_Rounding2.val. change (sval 0) with 0%Z. unfold Rdiv. ring.
Qed.

Lemma F32_float_like : float_like F32M real32 u32 eta32 (2 ^ 24).
Proof.
  pose proof roundoff_pos as RP. pose proof tiny_pos as TP. pose proof roundoff_small as RS. destruct tiny_small as [T1 T2].
  assert (SM : / 2 ^ 10 <= / 16) by (apply Rinv_le_contravar; lra).
  assert (W : forall e e' x z, rounded_up_to roundoff e x z -> e <= e' -> rounded_up_to u32 e' x z).
  { intros e e' x z (A & B) He. split; [|exact B]. unfold u32. pose proof (Rabs_pos x). nra. }
  constructor.
  - unfold u32. lra.
  - unfold eta32. lra.
  - change (real32 0 = 0). rewrite real32_val. unfold L_Rounding2.val. change (sval 0) with 0%Z. unfold Rdiv. ring.
  - change (real32 1065353216 = 1). rewrite <- (count_exact 1) by lia. reflexivity.
  - intros a b. destruct (C85_operations_lemma a b) as (A & _). apply (W 0); [|lra]. split; [rewrite Rplus_0_r; exact A|].
    destruct (sround_sign (sval a + sval b)) as [S1 S2]. rewrite <- add_form. change (nadd (n:=F32M) a b) with (sround (sval a + sval b)).
    destruct (real_sign (sround (sval a + sval b))) as [R1 R2].
    pose proof unit_pos as P. assert (Q : 0 < / 2 ^ 149) by (apply Rinv_0_lt_compat; exact P). unfold Rdiv.
    split; intros H; [apply R1, S1, le_IZR; nra|apply R2, S2, le_IZR; nra].
  - intros a b. destruct (C85_operations_lemma a b) as (_ & A & _). apply (W 0); [|lra]. split; [rewrite Rplus_0_r; exact A|].
    destruct (sround_sign (sval a - sval b)) as [S1 S2]. rewrite <- sub_form. change (nsub (n:=F32M) a b) with (sround (sval a - sval b)).
    destruct (real_sign (sround (sval a - sval b))) as [R1 R2].
    pose proof unit_pos as P. assert (Q : 0 < / 2 ^ 149) by (apply Rinv_0_lt_compat; exact P). unfold Rdiv.
    split; intros H; [apply R1, S1, le_IZR; nra|apply R2, S2, le_IZR; nra].
  - intros a b. destruct (C85_operations_lemma a b) as (_ & _ & A & _). apply (W tiny); [|unfold eta32; lra]. split; [exact A|].
    destruct (srat_sign (sval a * sval b) (2 ^ 149)) as [S1 S2]; [lia|]. change (nmul (n:=F32M) a b) with (srat (sval a * sval b) (2 ^ 149)).
    destruct (real_sign (srat (sval a * sval b) (2 ^ 149))) as [R1 R2]. rewrite <- mul_form, IZR_unit.
    pose proof unit_pos as P. assert (Q : 0 < / 2 ^ 149) by (apply Rinv_0_lt_compat; exact P). unfold Rdiv.
    assert (Q2 : 0 < / 2 ^ 149 * / 2 ^ 149) by nra. rewrite Rmult_assoc.
    split; intros H; [apply R1, S1|apply R2, S2].
    + assert (0 <= sval a * sval b)%Z by (apply le_IZR; nra). nia.
    + assert (sval a * sval b <= 0)%Z by (apply le_IZR; nra). nia.
  - intros a b Hb. destruct (C85_operations_lemma a b) as (_ & _ & _ & A). apply (W tiny); [|unfold eta32; lra]. split; [exact (A Hb)|].
    pose proof (real32_zero b Hb) as Zb.
    destruct (srat_sign (sval a * 2 ^ 149) (sval b) Zb) as [S1 S2]. change (ndiv (n:=F32M) a b) with (srat (sval a * 2 ^ 149) (sval b)).
    destruct (real_sign (srat (sval a * 2 ^ 149) (sval b))) as [R1 R2].
    destruct (real_sign a) as [A1 A2]. destruct (real_sign b) as [B1 B2].
    assert (SB : (0 < sval b)%Z \/ (sval b < 0)%Z) by lia.
    assert (EX : real32 a / real32 b * (real32 b * real32 b) = real32 a * real32 b) by (field; exact Hb).
    assert (PB : 0 < real32 b * real32 b) by nra.
    split; intros H.
    + apply R1, S1. assert (G : 0 <= real32 a * real32 b) by nra.
      assert (0 <= sval a * sval b)%Z; [|nia].
      rewrite !real32_val in G. unfold L_Rounding2.val, Rdiv in G. pose proof unit_pos as P. assert (Q : 0 < / 2 ^ 149) by (apply Rinv_0_lt_compat; exact P).
      apply le_IZR. rewrite mult_IZR. assert (0 < / 2 ^ 149 * / 2 ^ 149) by nra. nra.
    + apply R2, S2. assert (G : real32 a * real32 b <= 0) by nra.
      assert (sval a * sval b <= 0)%Z; [|nia].
      rewrite !real32_val in G. unfold L_Rounding2.val, Rdiv in G. pose proof unit_pos as P. assert (Q : 0 < / 2 ^ 149) by (apply Rinv_0_lt_compat; exact P).
      apply le_IZR. rewrite mult_IZR. assert (0 < / 2 ^ 149 * / 2 ^ 149) by nra. nra.
  - intros a b. change (nleb (n:=F32M) a b) with (sval a <=? sval b)%Z. destruct (Z.leb_spec (sval a) (sval b)) as [H|H]; symmetry.
    + apply Rleb_true, real_order, H.
    + apply Rleb_false. destruct (Rle_lt_dec (real32 a) (real32 b)) as [C|C]; [apply real_order in C; lia|exact C].
  - intros a b. change (nltb (n:=F32M) a b) with (sval a <? sval b)%Z. unfold Rltb. destruct (Rlt_dec (real32 a) (real32 b)) as [H|H]; destruct (Z.ltb_spec (sval a) (sval b)) as [G|G]; try reflexivity; exfalso.
    + apply real_order in G. lra.
    + apply H. destruct (Rle_lt_dec (real32 b) (real32 a)) as [C|C]; [apply real_order in C; lia|exact C].
  - intros a b. change (neqb (n:=F32M) a b) with (sval a =? sval b)%Z. unfold Reqb. destruct (Req_EM_T (real32 a) (real32 b)) as [H|H]; destruct (Z.eqb_spec (sval a) (sval b)) as [G|G]; try reflexivity; exfalso.
    + apply G. assert (real32 a <= real32 b) by lra. assert (real32 b <= real32 a) by lra. apply real_order in H0. apply real_order in H1. lia.
    + apply H. rewrite !real32_val. unfold L_Rounding2.val. rewrite G. reflexivity.
  - intros n Hn. unfold nofnat. change (nofZ (n:=F32M) (Z.of_nat n)) with (sround (Z.of_nat n * 2 ^ 149)). rewrite count_exact, INR_IZR_INZ; [reflexivity|].
    apply Nat2Z.inj_le in Hn. rewrite Nat2Z.inj_pow in Hn. change (Z.of_nat 2 ^ Z.of_nat 24)%Z with (2 ^ 24)%Z in Hn. lia.
  - intros a Ha. change (nexp2 (n:=F32M) a) with (of_real (Rexp2 (real32 a))). split.
    + apply of_real_rel. pose proof (Rexp2_le 0 (real32 a) Ha) as H. rewrite Rexp2_0 in H. apply Rle_trans with 1; [exact one_small|exact H].
    + intros E. rewrite E, Rexp2_0. unfold of_real. replace (1 * 2 ^ 149) with (IZR (2 ^ 149)) by (rewrite IZR_unit; ring).
      rewrite Int_part_int. replace (2 ^ 149)%Z with (1 * 2 ^ 149)%Z at 1 by lia. apply count_exact. lia.
  - intros a Ha. change (nlog2 (n:=F32M) a) with (of_real (Rlog2 (real32 a))). apply of_real_rel. apply Rle_trans with 1; [exact one_small|exact (log2_ge1 _ Ha)].
  - intros a Ha. change (nsqrt (n:=F32M) a) with (of_real (sqrt (real32 a))).
    destruct (Rle_lt_or_eq_dec 0 (real32 a) Ha) as [P|E].
    + apply of_real_rel. rewrite <- (sqrt_Rsqr (/ 2 ^ 75)) by (left; apply Rinv_0_lt_compat, pow_lt; lra). apply sqrt_le_1_alt.
      assert (1 <= sval a)%Z as G. { destruct (Z.le_gt_cases (sval a) 0) as [C|C]; [|lia]. apply (proj2 (real_sign a)) in C. lra. }
      apply IZR_le in G. rewrite real32_val. unfold L_Rounding2.val, Rdiv. assert (Q : 0 < / 2 ^ 149) by (apply Rinv_0_lt_compat, unit_pos).
      assert (L : Rsqr (/ 2 ^ 75) <= / 2 ^ 149).
      { unfold Rsqr. rewrite <- Rinv_mult, <- pow_add. apply Rinv_le_contravar; [apply unit_pos|]. apply Rle_pow; [lra|lia]. }
      nra.
    + rewrite <- E, sqrt_0, of_real_0. split; [rewrite Rminus_0_r, Rabs_R0; lra|split; intros; lra].
  - intros a i Ha. change (npow (n:=F32M) a i) with (of_real (real32 a ^ i)). assert (P : 0 <= real32 a ^ i) by (apply pow_le; lra).
    destruct (of_real_abs _ P) as [A B]. split; [|split; [intros _; exact A|]].
    + rewrite (Rabs_pos_eq (real32 a ^ i)) by exact P. unfold u32, eta32. nra.
    + intros H. assert (E : real32 a ^ i = 0) by lra. rewrite E, of_real_0. lra.
  - intros a. reflexivity.
  - intros a. change (nf32 (n:=F32M) a) with a. split; [|split; intros H; exact H]. replace (real32 a - real32 a) with 0 by ring. rewrite Rabs_R0.
    pose proof (Rabs_pos (real32 a)). unfold u32, eta32. nra.
Qed.
