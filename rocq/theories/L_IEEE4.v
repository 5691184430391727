(** Proofs: [F32N] agrees with IEEE 754 binary32. *)
From Coq Require Import List ZArith Lia Bool SpecFloat.
From Verif Require Import Base Num M_Float L_Float L_Float2 S_Ensemble S_IEEE M_IEEE L_IEEE L_IEEE2 L_IEEE3.
Import ListNotations.
Local Open Scope Z_scope.

Lemma p23 : 1 <= 23. Proof. lia. Qed.
Lemma e128 : 23 + 1 < 128. Proof. lia. Qed.
Lemma top32 : top 23 128 = 255 * 2 ^ 23. Proof. reflexivity. Qed.

Lemma sval_cond s j : 0 <= j -> sval (cond_Zopp s j) = cond_Zopp s (fval 23 j).
Proof.
  intros H. destruct s; cbn [cond_Zopp]; [|unfold sval; destruct (Z.ltb_spec j 0); [lia|reflexivity]].
  destruct (Z.eq_dec j 0) as [->|N]; [reflexivity|]. unfold sval. destruct (Z.ltb_spec (- j) 0); [|lia]. rewrite Z.opp_involutive. reflexivity.
Qed.
Lemma stands_of s j : 0 <= j < 255 * 2 ^ 23 -> stands (bits32 s j) (cond_Zopp s j).
Proof. intros H. exists s, j. destruct s; auto. Qed.
Lemma stands_inv x k : stands x k -> exists s j, 0 <= j < top 23 128 /\ x = decode 23 128 s j /\ k = cond_Zopp s j.
Proof. intros (s & j & H & E & K). exists s, j. rewrite top32. repeat split; try lia; auto. Qed.
Lemma result_of_bits s k j : 0 <= j -> k = cond_Zopp s j -> (j = 0 -> s = false) -> result_of (bits32 s j) k.
Proof.
  intros Hj -> Hs. unfold result_of. replace (Z.abs (cond_Zopp s j)) with j by (destruct s; cbn [cond_Zopp]; lia).
  destruct (Z.ltb_spec j (255 * 2 ^ 23)) as [L|L]; [apply stands_of; lia|].
  replace (cond_Zopp s j <? 0) with s.
  2:{ destruct s; cbn [cond_Zopp]; symmetry; [apply Z.ltb_lt|apply Z.ltb_ge]; lia. }
  unfold bits32, decode. assert (255 <= j / 2 ^ 23) by (apply Z.div_le_lower_bound; lia).
  destruct (Z.eqb_spec (j / 2 ^ 23) 0); [lia|]. destruct (Z.ltb_spec (j / 2 ^ 23) (2 * 128 - 1)); [lia|reflexivity].
Qed.
Lemma result_of_zero z : result_of (S754_zero z) 0.
Proof. unfold result_of. cbn [Z.abs Z.ltb Z.compare]. exists z, 0. split; [lia|]. destruct z; auto. Qed.
(** A zero of either sign is the result 0. *)
Lemma result_of_any s k j : 0 <= j -> k = cond_Zopp s j -> result_of (bits32 s j) k.
Proof.
  intros Hj E. destruct (Z.eq_dec j 0) as [->|N]; [|apply result_of_bits; auto; lia].
  replace k with 0 by (destruct s; cbn [cond_Zopp] in E; lia). unfold bits32. rewrite decode_0 by lia. apply result_of_zero.
Qed.

Lemma sround_cond n : sround n = cond_Zopp (n <? 0) (fround 23 (Z.abs n) 1).
Proof. unfold sround. destruct (Z.ltb_spec n 0); cbn [cond_Zopp]; rewrite ?Z.abs_neq, ?Z.abs_eq by lia; reflexivity. Qed.
Lemma fround_nn a b : 0 <= a -> 0 < b -> 0 <= fround 23 a b.
Proof. intros Ha Hb. apply fround_ge; try lia. rewrite fval_0 by lia. lia. Qed.

Theorem ieee_add x y a b : stands x a -> stands y b -> result_of (nadd (n:=IEEE32) x y) (nadd (n:=F32N) a b).
Proof.
  intros Hx Hy. destruct (stands_inv x a Hx) as (s1 & j1 & B1 & -> & ->). destruct (stands_inv y b Hy) as (s2 & j2 & B2 & -> & ->).
  destruct (add_decode 23 128 p23 e128 s1 j1 s2 j2 B1 B2) as (A1 & A2). rewrite <- !sval_cond in A1, A2 by lia.
  cbn [nadd IEEE32 IEEE F32N]. set (n := sval (cond_Zopp s1 j1) + sval (cond_Zopp s2 j2)) in *.
  destruct (Z.eq_dec n 0) as [E|E].
  - destruct (A2 E) as (z & Q). change 24 with (23 + 1). rewrite Q, E. apply result_of_zero.
  - change 24 with (23 + 1). rewrite (A1 E). rewrite sround_cond. apply result_of_any; [apply fround_nn; lia|reflexivity].
Qed.
Theorem ieee_sub x y a b : stands x a -> stands y b -> result_of (nsub (n:=IEEE32) x y) (nsub (n:=F32N) a b).
Proof.
  intros Hx Hy. destruct (stands_inv x a Hx) as (s1 & j1 & B1 & -> & ->). destruct (stands_inv y b Hy) as (s2 & j2 & B2 & -> & ->).
  destruct (sub_decode 23 128 p23 e128 s1 j1 s2 j2 B1 B2) as (A1 & A2). rewrite <- !sval_cond in A1, A2 by lia.
  cbn [nsub IEEE32 IEEE F32N]. set (n := sval (cond_Zopp s1 j1) - sval (cond_Zopp s2 j2)) in *.
  destruct (Z.eq_dec n 0) as [E|E].
  - destruct (A2 E) as (z & Q). change 24 with (23 + 1). rewrite Q, E. apply result_of_zero.
  - change 24 with (23 + 1). rewrite (A1 E). rewrite sround_cond. apply result_of_any; [apply fround_nn; lia|reflexivity].
Qed.
Lemma srat_cond s1 s2 a b : 0 <= a -> 0 < b -> srat (cond_Zopp s1 a) (cond_Zopp s2 b) = cond_Zopp (xorb s1 s2) (fround 23 a b).
Proof.
  intros Ha Hb. unfold srat. replace (Z.abs (cond_Zopp s1 a)) with a by (destruct s1; cbn [cond_Zopp]; lia).
  replace (Z.abs (cond_Zopp s2 b)) with b by (destruct s2; cbn [cond_Zopp]; lia).
  destruct (Z.eq_dec a 0) as [->|N].
  - rewrite (fround_zero 23 p23 b Hb). destruct s1, s2; cbn [cond_Zopp xorb]; repeat destruct (_ <? _); reflexivity.
  - assert (Na : (- a <? 0) = true) by (apply Z.ltb_lt; lia). assert (Nb : (- b <? 0) = true) by (apply Z.ltb_lt; lia).
    assert (Pa : (0 <? a) = true) by (apply Z.ltb_lt; lia). assert (Pb : (0 <? b) = true) by (apply Z.ltb_lt; lia).
    assert (Na' : (a <? 0) = false) by (apply Z.ltb_ge; lia). assert (Nb' : (b <? 0) = false) by (apply Z.ltb_ge; lia).
    assert (Pa' : (0 <? - a) = false) by (apply Z.ltb_ge; lia). assert (Pb' : (0 <? - b) = false) by (apply Z.ltb_ge; lia).
    destruct s1, s2; cbn [cond_Zopp xorb]; rewrite ?Na, ?Nb, ?Pa, ?Pb, ?Na', ?Nb', ?Pa', ?Pb'; reflexivity.
Qed.
Theorem ieee_mul x y a b : stands x a -> stands y b -> result_of (nmul (n:=IEEE32) x y) (nmul (n:=F32N) a b).
Proof.
  intros Hx Hy. destruct (stands_inv x a Hx) as (s1 & j1 & B1 & -> & ->). destruct (stands_inv y b Hy) as (s2 & j2 & B2 & -> & ->).
  pose proof (fval_nonneg 23 ltac:(lia) j1 ltac:(lia)). pose proof (fval_nonneg 23 ltac:(lia) j2 ltac:(lia)).
  cbn [nmul IEEE32 IEEE F32N]. change 24 with (23 + 1). rewrite (mul_decode 23 128 p23 e128 s1 j1 s2 j2 B1 B2).
  apply result_of_any; [apply fround_nn; [nia|reflexivity]|]. rewrite !sval_cond by lia.
  replace (cond_Zopp s1 (fval 23 j1) * cond_Zopp s2 (fval 23 j2)) with (cond_Zopp (xorb s1 s2) (fval 23 j1 * fval 23 j2)) by (destruct s1, s2; cbn [cond_Zopp xorb]; lia).
  change (2 ^ 149) with (cond_Zopp false (2 ^ 149)) at 1. rewrite srat_cond by (nia || reflexivity). rewrite xorb_false_r. reflexivity.
Qed.
Theorem ieee_div x y a b : stands x a -> stands y b -> b <> 0 -> result_of (ndiv (n:=IEEE32) x y) (ndiv (n:=F32N) a b).
Proof.
  intros Hx Hy Nb. destruct (stands_inv x a Hx) as (s1 & j1 & B1 & -> & ->). destruct (stands_inv y b Hy) as (s2 & j2 & B2 & -> & ->).
  assert (0 < j2) by (destruct s2; cbn [cond_Zopp] in Nb; lia).
  pose proof (fval_nonneg 23 ltac:(lia) j1 ltac:(lia)). pose proof (fval_pos 23 p23 j2 ltac:(lia)).
  cbn [ndiv IEEE32 IEEE F32N]. change 24 with (23 + 1). rewrite (div_decode 23 128 p23 e128 s1 j1 s2 j2 B1 ltac:(lia)).
  apply result_of_any; [apply fround_nn; [|lia]; apply Z.mul_nonneg_nonneg; [lia|apply Z.pow_nonneg; lia]|].
  rewrite !sval_cond by lia. rewrite opp_mul. rewrite srat_cond; [reflexivity| |lia].
  apply Z.mul_nonneg_nonneg; [lia|apply Z.pow_nonneg; lia].
Qed.
(** Division by zero. *)
Theorem ieee_div_zero x y a : stands x a -> stands y 0 ->
  ndiv (n:=IEEE32) x y = S754_nan /\ a = 0 \/ (exists s, ndiv (n:=IEEE32) x y = S754_infinity s) /\ a <> 0.
Proof.
  intros Hx Hy. destruct (stands_inv x a Hx) as (s1 & j1 & B1 & -> & ->). destruct (stands_inv y 0 Hy) as (s2 & j2 & B2 & -> & E).
  assert (j2 = 0) as -> by (destruct s2; cbn [cond_Zopp] in E; lia). cbn [ndiv IEEE32 IEEE]. rewrite decode_0 by lia.
  destruct (decode_cases 23 128 p23 e128 s1 j1 B1) as [(-> & ->)|(m & e & K & -> & _)]; cbn [SFdiv].
  - left. split; [reflexivity|]. destruct s1; reflexivity.
  - right. split; [eauto|]. destruct s1; cbn [cond_Zopp]; lia.
Qed.

Theorem ieee_compare x y a b : stands x a -> stands y b -> SFcompare x y = Some (a ?= b).
Proof.
  intros Hx Hy. destruct (stands_inv x a Hx) as (s1 & j1 & B1 & -> & ->). destruct (stands_inv y b Hy) as (s2 & j2 & B2 & -> & ->).
  apply (compare_decode 23 128 p23 e128); assumption.
Qed.
Theorem ieee_comparisons x y a b : stands x a -> stands y b ->
  nleb (n:=IEEE32) x y = nleb (n:=F32N) a b /\ nltb (n:=IEEE32) x y = nltb (n:=F32N) a b /\ neqb (n:=IEEE32) x y = neqb (n:=F32N) a b.
Proof.
  intros Hx Hy. cbn [nleb nltb neqb IEEE32 IEEE F32N]. unfold SFleb, SFltb, SFeqb. rewrite (ieee_compare x y a b Hx Hy).
  pose proof (sval_lt a b) as L1. pose proof (sval_lt b a) as L2.
  destruct (Z.compare_spec a b) as [->|C|C].
  - rewrite Z.leb_refl, Z.ltb_irrefl, Z.eqb_refl. auto.
  - destruct (Z.leb_spec (sval a) (sval b)); destruct (Z.ltb_spec (sval a) (sval b)); destruct (Z.eqb_spec (sval a) (sval b)); lia || auto.
  - destruct (Z.leb_spec (sval a) (sval b)); destruct (Z.ltb_spec (sval a) (sval b)); destruct (Z.eqb_spec (sval a) (sval b)); lia || auto.
Qed.
Theorem ieee_integer z : result_of (nofZ (n:=IEEE32) z) (nofZ (n:=F32N) z).
Proof.
  cbn [nofZ IEEE32 IEEE F32N]. change 24 with (23 + 1). rewrite (normalize_exact 23 128 p23 e128) by (compute; discriminate).
  destruct (Z.eqb_spec z 0) as [->|N]; [apply result_of_zero|]. change (0 - emin (23 + 1) 128) with 149.
  rewrite sround_cond. assert (H2 : 0 < 2 ^ 149) by reflexivity. apply result_of_any; [apply fround_nn; [apply Z.mul_nonneg_nonneg; lia|lia]|].
  rewrite Z.abs_mul, (Z.abs_eq (2 ^ 149)) by lia. f_equal.
  destruct (Z.ltb_spec z 0); destruct (Z.ltb_spec (z * 2 ^ 149) 0); auto; nia.
Qed.

(** ** All finite float32 values *)
Theorem finite_value_decode p emax x : 1 <= p -> p + 1 < emax ->
  (finite_value (p + 1) emax x <-> exists s j, 0 <= j < (2 * emax - 1) * 2 ^ p /\ x = decode p emax s j).
Proof.
  intros P1 E1. pose proof (emin_eq p emax) as EE. pose proof (pow_p p ltac:(lia)) as Q. pose proof (pow_p1 p ltac:(lia)) as Q1. split.
  - intros (V & F). destruct x as [s| | |s m e]; try contradiction.
    + exists s, 0. split; [nia|]. rewrite decode_0 by assumption. reflexivity.
    + cbn [valid_binary] in V. unfold bounded, canonical_mantissa in V. apply andb_true_iff in V. destruct V as (C & L).
      apply Zeq_bool_eq in C. apply Z.leb_le in L. change (Zpos (digits2_pos m)) with (Zdigits2 (Zpos m)) in C. rewrite fexp_eq in C.
      destruct (digits_spec (Zpos m) ltac:(lia)) as ((D1 & D2) & D3).
      assert (B : Zpos m < 2 ^ (p + 1)). { eapply Z.lt_le_trans; [exact D2|]. apply Z.pow_le_mono_r; lia. }
      assert (S : split_rank p (e - emin (p + 1) emax) (Zpos m)).
      { unfold split_rank. split; [lia|]. split; [lia|]. destruct (Z.eq_dec e (emin (p + 1) emax)) as [X|X]; [left; lia|right].
        replace p with (Zdigits2 (Zpos m) - 1) at 1 by lia. exact D1. }
      exists s, ((e - emin (p + 1) emax) * 2 ^ p + Zpos m). split.
      { destruct S as (S0 & S1 & S2). split; [nia|]. rewrite EE in *. nia. }
      rewrite (decode_split p emax P1 E1 s _ _ S). cbn [Z.eqb]. replace (e - emin (p + 1) emax + emin (p + 1) emax) with e by lia.
      destruct (Z.leb_spec e (emax - (p + 1))); [reflexivity|lia].
  - intros (s & j & B & ->). destruct (decode_cases p emax P1 E1 s j B) as [(-> & ->)|(m & e & K & D & (S0 & S1 & S2) & _ & V)]; [split; exact I || reflexivity|].
    rewrite D. split; [|exact I]. cbn [valid_binary]. unfold bounded, canonical_mantissa. apply andb_true_iff. split.
    + apply Zeq_is_eq_bool. change (Zpos (digits2_pos m)) with (Zdigits2 (Zpos m)). rewrite fexp_eq.
      pose proof (digits_upper (Zpos m) (p + 1) ltac:(lia) ltac:(lia) ltac:(lia)). destruct S2 as [S2|S2]; [lia|].
      pose proof (digits_lower (Zpos m) p ltac:(lia) S2). lia.
    + apply Z.leb_le. assert (e - emin (p + 1) emax < 2 * emax - 2) by nia. lia.
Qed.
Theorem stands_finite x : finite_value 24 128 x <-> exists k, stands x k.
Proof.
  pose proof (finite_value_decode 23 128 x p23 e128) as F. change (23 + 1) with 24 in F. rewrite F. split.
  - intros (s & j & B & E). exists (if s then - j else j), s, j. auto.
  - intros (k & s & j & B & E & _). exists s, j. auto.
Qed.
Theorem stands_unique x k k' : stands x k -> stands x k' -> k = k'.
Proof.
  intros H H'. pose proof (ieee_compare x x k k' H H') as A. pose proof (ieee_compare x x k k H H) as B.
  rewrite A in B. rewrite Z.compare_refl in B. injection B as B. apply Z.compare_eq_iff. exact B.
Qed.
Theorem stands_same x y k : stands x k -> stands y k -> same_number x y.
Proof.
  intros Hx Hy. destruct (stands_inv x k Hx) as (s1 & j1 & B1 & -> & ->). destruct (stands_inv y _ Hy) as (s2 & j2 & B2 & -> & E).
  destruct (Z.eq_dec j1 0) as [->|N].
  - assert (j2 = 0) as -> by (destruct s1, s2; cbn [cond_Zopp] in E; lia). rewrite !decode_0 by lia. right. exact I.
  - left. destruct s1, s2; cbn [cond_Zopp] in E; try lia; f_equal; lia.
Qed.
Theorem stands_ieee k : Z.abs k < 255 * 2 ^ 23 -> stands (ieee k) k.
Proof.
  intros H. unfold ieee. exists (k <? 0), (Z.abs k). split; [lia|]. split; [reflexivity|]. destruct (Z.ltb_spec k 0); lia.
Qed.

(** ** Conversions *)
Theorem double_to_float s d : 0 <= d < 2047 * 2 ^ 52 ->
  to_float32 (bits64 s d) = ieee_f32 (f32_of_rank s (fround 23 (fval 52 d) (2 ^ 925))).
Proof.
  intros H. assert (R : forall k, 0 <= k -> ieee_f32 (f32_of_rank s k) = decode 23 128 s k).
  { intros k Hk. unfold f32_of_rank. destruct (Z.ltb_spec k f32_top) as [L|L]; [reflexivity|]. cbn [ieee_f32]. unfold f32_top in L.
    unfold decode. assert (255 <= k / 2 ^ 23) by (apply Z.div_le_lower_bound; lia).
    destruct (Z.eqb_spec (k / 2 ^ 23) 0); [lia|]. destruct (Z.ltb_spec (k / 2 ^ 23) (2 * 128 - 1)); [lia|reflexivity]. }
  assert (H9 : 0 < 2 ^ 925) by reflexivity.
  pose proof (fval_nonneg 52 ltac:(lia) d ltac:(lia)) as FN. rewrite R by (apply fround_nn; lia). clear R.
  destruct (decode_cases 52 1024 ltac:(lia) ltac:(lia) s d H) as [(-> & D)|(m & e & K & D & (S0 & _) & V & _)]; unfold bits64; rewrite D; cbn [to_float32].
  - rewrite fval_0 by lia. rewrite (fround_zero 23 p23 _ H9). rewrite decode_0 by lia. reflexivity.
  - change 24 with (23 + 1). rewrite (round_exact 23 128 p23 e128). f_equal.
    assert (E32 : emin (23 + 1) 128 = -149) by reflexivity. assert (E64 : emin (52 + 1) 1024 = -1074) by reflexivity. rewrite E32. rewrite E64 in V, S0.
    apply fround_ratio; [apply Z.pow_pos_nonneg; lia|exact H9|]. rewrite V, <- !Z.mul_assoc. f_equal.
    rewrite <- !Z.pow_add_r by lia. f_equal. lia.
Qed.
