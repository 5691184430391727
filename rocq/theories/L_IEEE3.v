(** Proofs: the operations of [SpecFloat] on decoded bit patterns. *)
From Coq Require Import List ZArith Lia Bool SpecFloat.
From Verif Require Import Base M_Float L_Float M_IEEE S_IEEE L_IEEE L_IEEE2.
Import ListNotations.
Local Open Scope Z_scope.

Section Format.
Variables p emax : Z.
Hypothesis P1 : 1 <= p.
Hypothesis E1 : p + 1 < emax.
Notation prec := (p + 1).
Notation emin := (emin (p + 1) emax).
Notation fexp := (fexp (p + 1) emax).
Notation dec := (decode p emax).
Definition top : Z := (2 * emax - 1) * 2 ^ p.
Let P0 : 0 <= p := P0 p P1.

Lemma emin_neg : emin < 0. Proof. rewrite emin_eq. lia. Qed.
Lemma decode_0 s : dec s 0 = S754_zero s.
Proof. unfold decode. rewrite Z.mod_0_l, Z.div_0_l by (pose proof (pow_p p P0); lia). reflexivity. Qed.
Lemma decode_cases s k : 0 <= k < top -> k = 0 /\ dec s k = S754_zero s \/
  exists m e, 0 < k /\ dec s k = S754_finite s m e /\ split_rank p (e - emin) (Zpos m) /\
    fval p k = Zpos m * 2 ^ (e - emin) /\ k = (e - emin) * 2 ^ p + Zpos m.
Proof.
  intros H. destruct (Z.eq_dec k 0) as [->|NZ]; [left; split; [reflexivity|apply decode_0]|right].
  pose proof (pow_p p P0) as Q. pose proof (pow_p1 p P0) as Q1.
  destruct (rank_split p P0 k ltac:(lia)) as (e & m & Ek & S). pose proof S as (He & Hm & D).
  destruct m as [|m|m]; [|exists m, (e + emin)|lia].
  { assert (e = 0) by lia. subst e. lia. }
  replace (e + emin - emin) with e by lia. split; [lia|]. rewrite Ek at 1 2. rewrite (decode_split p emax P1 E1 s e (Zpos m) S).
  rewrite (fval_low p P0 e (Zpos m) S). cbn [Z.eqb]. pose proof (emin_eq p emax).
  destruct (Z.leb_spec (e + emin) (emax - prec)) as [L|L]; [auto|exfalso].
  unfold top in H. assert (2 * emax - 2 <= e) by lia. nia.
Qed.
Lemma fval_pos k : 0 < k -> 0 < fval p k.
Proof. intros H. pose proof (fval_lt p P0 0 k ltac:(lia) H). rewrite fval_0 in * by lia. lia. Qed.
Lemma fround_zero b : 0 < b -> fround p 0 b = 0.
Proof.
  intros H. pose proof (fround_exact p P0 0 b ltac:(lia) H) as E. rewrite fval_0 in E by lia. exact E.
Qed.
Lemma fround_fval k : 0 <= k -> fround p (fval p k) 1 = k.
Proof. intros H. pose proof (fround_exact p P0 k 1 H ltac:(lia)) as E. rewrite Z.mul_1_r in E. exact E. Qed.

(** ** Addition *)
Lemma normalize_exact n e z : emin <= e ->
  binary_normalize prec emax n e z = if n =? 0 then S754_zero z else dec (n <? 0) (fround p (Z.abs n * 2 ^ (e - emin)) 1).
Proof.
  intros H. destruct n as [|q|q]; cbn [binary_normalize Z.eqb Z.ltb Z.compare Z.abs]; [reflexivity| |];
    rewrite (round_exact p emax P1 E1), (Z.max_r 0 (e - emin)), (Z.max_l 0 (emin - e)) by lia; reflexivity.
Qed.
Lemma align_value m e f : emin <= f -> f <= e -> Zpos (fst (shl_align m e f)) * 2 ^ (f - emin) = Zpos m * 2 ^ (e - emin).
Proof.
  intros H L. destruct (Z.eq_dec f e) as [->|N]; [rewrite shl_align_id by lia; reflexivity|].
  rewrite shl_align_eq by lia. cbn [fst]. assert (0 < 2 ^ (e - f)) by (apply Z.pow_pos_nonneg; lia).
  rewrite Z2Pos.id by lia. rewrite <- Z.mul_assoc, <- Z.pow_add_r by lia. do 2 f_equal. lia.
Qed.
Lemma opp_mul s a b : cond_Zopp s a * b = cond_Zopp s (a * b).
Proof. destruct s; cbn [cond_Zopp]; lia. Qed.
Lemma opp_opp s a : - cond_Zopp s a = cond_Zopp (negb s) a.
Proof. destruct s; cbn [cond_Zopp negb]; lia. Qed.
Lemma single s k : 0 < k -> cond_Zopp s (fval p k) <> 0 /\ (cond_Zopp s (fval p k) <? 0) = s /\ Z.abs (cond_Zopp s (fval p k)) = fval p k.
Proof. intros H. pose proof (fval_pos k H). destruct s; cbn [cond_Zopp]; lia. Qed.
Theorem add_decode s1 k1 s2 k2 : 0 <= k1 < top -> 0 <= k2 < top ->
  let n := cond_Zopp s1 (fval p k1) + cond_Zopp s2 (fval p k2) in
  (n <> 0 -> SFadd prec emax (dec s1 k1) (dec s2 k2) = dec (n <? 0) (fround p (Z.abs n) 1)) /\
  (n = 0 -> exists z, SFadd prec emax (dec s1 k1) (dec s2 k2) = S754_zero z).
Proof.
  intros H1 H2 n.
  destruct (decode_cases s1 k1 H1) as [(Z1 & D1)|(m1 & e1 & K1 & D1 & (S1 & _) & V1 & _)];
  destruct (decode_cases s2 k2 H2) as [(Z2 & D2)|(m2 & e2 & K2 & D2 & (S2 & _) & V2 & _)].
  - assert (n = 0). { unfold n. rewrite Z1, Z2, fval_0 by lia. destruct s1, s2; reflexivity. }
    split; [lia|]. intros _. rewrite D1, D2. cbn [SFadd]. destruct (Bool.eqb s1 s2); eauto.
  - assert (N : n = cond_Zopp s2 (fval p k2)). { unfold n. rewrite Z1, fval_0 by lia. destruct s1; reflexivity. }
    destruct (single s2 k2 K2) as (A & B & C). rewrite N. split; [|tauto]. intros _. rewrite B, C, fround_fval by lia.
    rewrite D1, D2. reflexivity.
  - assert (N : n = cond_Zopp s1 (fval p k1)). { unfold n. rewrite Z2, (fval_0 p) by lia. destruct s2; cbn [cond_Zopp]; lia. }
    destruct (single s1 k1 K1) as (A & B & C). rewrite N. split; [|tauto]. intros _. rewrite B, C, fround_fval by lia.
    rewrite D1, D2. reflexivity.
  - rewrite D1, D2. cbn [SFadd]. rewrite normalize_exact by lia. set (ez := Z.min e1 e2).
    set (t := cond_Zopp s1 (Zpos (fst (shl_align m1 e1 ez))) + cond_Zopp s2 (Zpos (fst (shl_align m2 e2 ez)))).
    assert (T : n = t * 2 ^ (ez - emin)).
    { unfold n, t. rewrite Z.mul_add_distr_r, !opp_mul, !align_value by lia. rewrite V1, V2. reflexivity. }
    assert (0 < 2 ^ (ez - emin)) by (apply Z.pow_pos_nonneg; lia). rewrite T.
    destruct (Z.eqb_spec t 0) as [Et|Et].
    + rewrite Et, Z.mul_0_l. split; [lia|eauto].
    + split; [|nia]. intros _. rewrite Z.abs_mul, (Z.abs_eq (2 ^ (ez - emin))) by lia. f_equal.
      destruct (Z.ltb_spec t 0); destruct (Z.ltb_spec (t * 2 ^ (ez - emin)) 0); auto; nia.
Qed.
Lemma sub_is_add x y : SFsub prec emax x y = SFadd prec emax x (SFopp y).
Proof.
  destruct x as [?|?| |s m e], y as [?|?| |s' m' e']; cbn [SFsub SFadd SFopp]; try reflexivity.
  f_equal. rewrite <- opp_opp. lia.
Qed.
Lemma opp_decode s k : SFopp (dec s k) = dec (negb s) k.
Proof.
  unfold decode. destruct (k / 2 ^ p =? 0); [destruct (k mod 2 ^ p =? 0)|destruct (k / 2 ^ p <? 2 * emax - 1)]; reflexivity.
Qed.
Theorem sub_decode s1 k1 s2 k2 : 0 <= k1 < top -> 0 <= k2 < top ->
  let n := cond_Zopp s1 (fval p k1) - cond_Zopp s2 (fval p k2) in
  (n <> 0 -> SFsub prec emax (dec s1 k1) (dec s2 k2) = dec (n <? 0) (fround p (Z.abs n) 1)) /\
  (n = 0 -> exists z, SFsub prec emax (dec s1 k1) (dec s2 k2) = S754_zero z).
Proof.
  intros H1 H2 n. rewrite sub_is_add, opp_decode. pose proof (add_decode s1 k1 (negb s2) k2 H1 H2) as A. cbv zeta in A.
  rewrite <- opp_opp in A. exact A.
Qed.

(** ** Multiplication *)
Theorem mul_decode s1 k1 s2 k2 : 0 <= k1 < top -> 0 <= k2 < top ->
  SFmul prec emax (dec s1 k1) (dec s2 k2) = dec (xorb s1 s2) (fround p (fval p k1 * fval p k2) (2 ^ (- emin))).
Proof.
  intros H1 H2. pose proof emin_neg as EN. assert (HE : 0 < 2 ^ (- emin)) by (apply Z.pow_pos_nonneg; lia).
  destruct (decode_cases s1 k1 H1) as [(Z1 & D1)|(m1 & e1 & K1 & D1 & S1 & V1 & _)];
  destruct (decode_cases s2 k2 H2) as [(Z2 & D2)|(m2 & e2 & K2 & D2 & S2 & V2 & _)]; rewrite D1, D2; cbn [SFmul].
  - rewrite Z1, fval_0 by lia. rewrite Z.mul_0_l, fround_zero, decode_0 by lia. reflexivity.
  - rewrite Z1, fval_0 by lia. rewrite Z.mul_0_l, fround_zero, decode_0 by lia. reflexivity.
  - rewrite Z2, (fval_0 p) by lia. rewrite Z.mul_0_r, fround_zero, decode_0 by lia. reflexivity.
  - destruct S1 as (S1 & B1 & N1), S2 as (S2 & B2 & N2). rewrite Pos2Z.inj_mul.
    assert (DG1 : e1 - emin = 0 \/ Zdigits2 (Zpos m1) >= p + 1).
    { destruct N1 as [N1|N1]; [auto|right]. pose proof (digits_lower (Zpos m1) p ltac:(lia) N1). lia. }
    assert (DG2 : e2 - emin = 0 \/ Zdigits2 (Zpos m2) >= p + 1).
    { destruct N2 as [N2|N2]; [auto|right]. pose proof (digits_lower (Zpos m2) p ltac:(lia) N2). lia. }
    assert (DM : Zdigits2 (Zpos m1) + Zdigits2 (Zpos m2) - 1 <= Zdigits2 (Zpos m1 * Zpos m2)).
    { rewrite !digits_log by lia. pose proof (Z.log2_mul_below (Zpos m1) (Zpos m2) ltac:(lia) ltac:(lia)). lia. }
    pose proof (digits_spec (Zpos m1) ltac:(lia)) as (_ & X1). pose proof (digits_spec (Zpos m2) ltac:(lia)) as (_ & X2).
    rewrite (round_aux p emax P1 E1 _ _ (e1 + e2) loc_Exact (Zpos m1 * Zpos m2) 1); [|lia|lia|apply located_exact|rewrite fexp_eq; lia].
    f_equal. set (u := Z.max 0 (e1 + e2 - emin)). set (v := Z.max 0 (emin - (e1 + e2))).
    assert (0 < 2 ^ v) by (apply Z.pow_pos_nonneg; lia).
    apply fround_ratio; [lia|lia|]. rewrite V1, V2.
    transitivity (Zpos m1 * Zpos m2 * (2 ^ u * 2 ^ (- emin))); [ring|].
    transitivity (Zpos m1 * Zpos m2 * (2 ^ (e1 - emin) * 2 ^ (e2 - emin) * 2 ^ v)); [|ring].
    f_equal. rewrite <- !Z.pow_add_r by lia. f_equal. lia.
Qed.

(** ** Division *)
Lemma Zeq_bool_eqb x y : Zeq_bool x y = (x =? y).
Proof. destruct (Z.eqb_spec x y) as [->|N]; [apply Zeq_is_eq_bool; reflexivity|]. destruct (Zeq_bool x y) eqn:Q; auto. apply Zeq_bool_eq in Q. contradiction. Qed.
Lemma new_location_located a b : 0 < b -> located (a / b) (new_location b (a mod b)) a b.
Proof.
  intros H. split; [reflexivity|]. unfold new_location. pose proof (Z.mod_pos_bound a b H).
  destruct (Z.even b) eqn:E; unfold new_location_even, new_location_odd; rewrite Zeq_bool_eqb.
  - reflexivity.
  - destruct (Z.eqb_spec (a mod b) 0); [reflexivity|]. f_equal.
    assert (O : b <> 2 * (a mod b)). { intros X. rewrite X, Z.even_mul in E. discriminate. }
    destruct (Z.compare_spec (2 * (a mod b)) b); destruct (Z.compare_spec (2 * (a mod b) + 1) b); try lia; reflexivity.
Qed.
Lemma digits_div a b : 0 < a -> 0 < b -> Zdigits2 a - Zdigits2 b <= Zdigits2 (a / b).
Proof.
  intros Ha Hb. assert (Hq : 0 <= a / b) by (apply Z.div_pos; lia). pose proof (digits_nonneg (a / b) Hq).
  destruct (digits_spec a Ha) as ((A1 & _) & A3). destruct (digits_spec b Hb) as ((_ & B2) & B3).
  destruct (Z.le_gt_cases (Zdigits2 a - Zdigits2 b) 0) as [L|L]; [lia|].
  pose proof (digits_lower (a / b) (Zdigits2 a - Zdigits2 b - 1) ltac:(lia)) as K.
  assert (2 ^ (Zdigits2 a - Zdigits2 b - 1) <= a / b); [|lia].
  apply Z.div_le_lower_bound; [lia|]. eapply Z.le_trans; [|exact A1].
  replace (Zdigits2 a - 1) with (Zdigits2 b + (Zdigits2 a - Zdigits2 b - 1)) by lia. rewrite (Z.pow_add_r 2 (Zdigits2 b)) by lia.
  apply Z.mul_le_mono_nonneg_r; [apply Z.pow_nonneg; lia|lia].
Qed.
Theorem div_decode s1 k1 s2 k2 : 0 <= k1 < top -> 0 < k2 < top ->
  SFdiv prec emax (dec s1 k1) (dec s2 k2) = dec (xorb s1 s2) (fround p (fval p k1 * 2 ^ (- emin)) (fval p k2)).
Proof.
  intros H1 H2. pose proof emin_neg as EN. assert (HE : 0 < 2 ^ (- emin)) by (apply Z.pow_pos_nonneg; lia).
  pose proof (fval_pos k2 ltac:(lia)) as F2.
  destruct (decode_cases s2 k2 ltac:(lia)) as [(Z2 & D2)|(m2 & e2 & K2 & D2 & S2 & V2 & _)]; [lia|].
  destruct (decode_cases s1 k1 H1) as [(Z1 & D1)|(m1 & e1 & K1 & D1 & S1 & V1 & _)]; rewrite D1, D2; cbn [SFdiv].
  - rewrite Z1, (fval_0 p) by lia. rewrite Z.mul_0_l, fround_zero, decode_0 by lia. reflexivity.
  - destruct S1 as (S1 & _), S2 as (S2 & _). unfold SFdiv_core_binary.
    set (f := fexp (Zdigits2 (Zpos m1) + e1 - (Zdigits2 (Zpos m2) + e2))). set (e' := Z.min f (e1 - e2)).
    set (t := e1 - e2 - e'). assert (Ht : 0 <= t) by lia.
    assert (M : match t with Z0 => Zpos m1 | Zpos _ => Z.shiftl (Zpos m1) t | Zneg _ => 0 end = Zpos m1 * 2 ^ t).
    { destruct t as [|q|q]; [change (2 ^ 0) with 1; lia| |lia]. rewrite Z.shiftl_mul_pow2 by lia. reflexivity. }
    rewrite M. assert (H2t : 0 < 2 ^ t) by (apply Z.pow_pos_nonneg; lia).
    set (a := Zpos m1 * 2 ^ t). assert (Ha : 0 < a) by (unfold a; lia).
    rewrite (surjective_pairing (Z.div_eucl a (Zpos m2))).
    replace (snd (Z.div_eucl a (Zpos m2))) with (a mod Zpos m2) by (unfold Z.modulo; destruct (Z.div_eucl a (Zpos m2)); reflexivity).
    replace (fst (Z.div_eucl a (Zpos m2))) with (a / Zpos m2) by (unfold Z.div; destruct (Z.div_eucl a (Zpos m2)); reflexivity).
    assert (DA : Zdigits2 a = Zdigits2 (Zpos m1) + t).
    { unfold a. rewrite !digits_log by lia. rewrite Z.log2_mul_pow2 by lia. lia. }
    pose proof (digits_div a (Zpos m2) Ha ltac:(lia)) as DQ. rewrite DA in DQ.
    rewrite (round_aux p emax P1 E1 _ _ e' _ a (Zpos m2)); [|lia|lia|apply new_location_located; lia|].
    2:{ clear - DQ EN Ht. unfold t, e', f in *. rewrite !fexp_eq in *. lia. }
    f_equal. set (u := Z.max 0 (e' - emin)). set (v := Z.max 0 (emin - e')).
    assert (0 < 2 ^ v) by (apply Z.pow_pos_nonneg; lia).
    apply fround_ratio; [lia|lia|]. rewrite V1, V2. unfold a.
    transitivity (Zpos m1 * Zpos m2 * (2 ^ t * 2 ^ u * 2 ^ (e2 - emin))); [ring|].
    transitivity (Zpos m1 * Zpos m2 * (2 ^ (e1 - emin) * 2 ^ (- emin) * 2 ^ v)); [|ring].
    f_equal. rewrite <- !Z.pow_add_r by lia. f_equal. lia.
Qed.

(** ** Comparison *)
Lemma lex_compare e1 m1 e2 m2 : split_rank p e1 m1 -> split_rank p e2 m2 ->
  (e1 * 2 ^ p + m1 ?= e2 * 2 ^ p + m2) = match e1 ?= e2 with Eq => m1 ?= m2 | c => c end.
Proof.
  intros (A1 & A2 & A3) (B1 & B2 & B3). pose proof (pow_p p P0) as Q. pose proof (pow_p1 p P0) as Q1.
  destruct (Z.compare_spec e1 e2) as [->|L|L].
  - destruct (Z.compare_spec m1 m2); [apply Z.compare_eq_iff|apply Z.compare_lt_iff|apply Z.compare_gt_iff]; lia.
  - apply Z.compare_lt_iff. nia.
  - apply Z.compare_gt_iff. nia.
Qed.
Theorem compare_decode s1 k1 s2 k2 : 0 <= k1 < top -> 0 <= k2 < top ->
  SFcompare (dec s1 k1) (dec s2 k2) = Some (cond_Zopp s1 k1 ?= cond_Zopp s2 k2).
Proof.
  intros H1 H2.
  destruct (decode_cases s1 k1 H1) as [(Z1 & D1)|(m1 & e1 & K1 & D1 & S1 & _ & V1)];
  destruct (decode_cases s2 k2 H2) as [(Z2 & D2)|(m2 & e2 & K2 & D2 & S2 & _ & V2)]; rewrite D1, D2; cbn [SFcompare]; f_equal.
  - subst. destruct s1, s2; reflexivity.
  - subst k1. destruct s2, s1; cbn [cond_Zopp]; symmetry; first [apply Z.compare_gt_iff; lia | apply Z.compare_lt_iff; lia].
  - subst k2. destruct s2, s1; cbn [cond_Zopp]; symmetry; first [apply Z.compare_gt_iff; lia | apply Z.compare_lt_iff; lia].
  - pose proof (lex_compare _ _ _ _ S1 S2) as L. rewrite <- V1, <- V2 in L.
    change (Pos.compare_cont Eq m1 m2) with (Zpos m1 ?= Zpos m2).
    replace (e1 - emin ?= e2 - emin) with (e1 ?= e2) in L by (destruct (Z.compare_spec e1 e2); symmetry; [apply Z.compare_eq_iff|apply Z.compare_lt_iff|apply Z.compare_gt_iff]; lia).
    destruct s1, s2; cbn [cond_Zopp].
    + rewrite Z.compare_opp, (Z.compare_antisym k1 k2), L. destruct (e1 ?= e2); reflexivity.
    + symmetry. apply Z.compare_lt_iff. lia.
    + symmetry. apply Z.compare_gt_iff. lia.
    + symmetry. exact L.
Qed.
End Format.
