(** Proofs: [binary_round_aux] and [binary_round] are [fround]. *)
From Coq Require Import List ZArith Lia Bool SpecFloat.
From Verif Require Import Base M_Float L_Float M_IEEE S_IEEE L_IEEE.
Import ListNotations.
Local Open Scope Z_scope.

Section Format.
Variables p emax : Z.
Hypothesis P1 : 1 <= p.
Hypothesis E1 : p + 1 < emax.
Notation prec := (p + 1).
Notation emin := (emin (p + 1) emax).
Notation fexp := (fexp (p + 1) emax).
Notation dec := (decode p emax).

Lemma emin_eq : emin = 2 - emax - p. Proof. unfold SpecFloat.emin. lia. Qed.
Lemma fexp_eq x : fexp x = Z.max (x - p - 1) emin. Proof. unfold SpecFloat.fexp. lia. Qed.
Lemma P0 : 0 <= p. Proof. lia. Qed.

Lemma decode_split s e m : split_rank p e m ->
  dec s (e * 2 ^ p + m) =
  if m =? 0 then S754_zero s
  else if e + emin <=? emax - prec then S754_finite s (Z.to_pos m) (e + emin) else S754_infinity s.
Proof.
  intros (He & Hm & D). pose proof (pow_p p P0) as Q. pose proof (pow_p1 p P0) as Q1. unfold decode.
  destruct (Z.leb_spec (2 ^ p) m) as [L|L].
  - replace (e * 2 ^ p + m) with ((m - 2 ^ p) + (e + 1) * 2 ^ p) by lia.
    rewrite Z.mod_add, Z.div_add by lia. rewrite Z.mod_small, Z.div_small by lia.
    replace (0 + (e + 1) =? 0) with false by (symmetry; apply Z.eqb_neq; lia).
    replace (m =? 0) with false by (symmetry; apply Z.eqb_neq; lia).
    replace (2 ^ p + (m - 2 ^ p)) with m by lia. replace (0 + (e + 1) - 1 + emin) with (e + emin) by lia.
    pose proof emin_eq. destruct (Z.ltb_spec (0 + (e + 1)) (2 * emax - 1)); destruct (Z.leb_spec (e + emin) (emax - prec)); try lia; reflexivity.
  - destruct D as [-> | D]; [|lia]. replace (0 * 2 ^ p + m) with m by lia. rewrite Z.mod_small, Z.div_small by lia.
    cbn [Z.eqb]. destruct (Z.eqb_spec m 0); [reflexivity|]. pose proof emin_eq.
    destruct (Z.leb_spec (0 + emin) (emax - prec)); [|lia]. reflexivity.
Qed.

Lemma log_scaled m e l a b : 0 <= a -> 0 < b -> located m l a b -> e <= fexp (Zdigits2 m + e) ->
  Z.max 0 (Z.log2 (a * 2 ^ Z.max 0 (e - emin) / (b * 2 ^ Z.max 0 (emin - e))) - p) = fexp (Zdigits2 m + e) - emin.
Proof.
  intros Ha Hb (Em & _) Al. assert (Hm : 0 <= m) by (rewrite Em; apply Z.div_pos; lia). rewrite fexp_eq in *.
  destruct (Z.le_gt_cases emin e) as [L|L].
  - rewrite (Z.max_l 0 (emin - e)), (Z.max_r 0 (e - emin)) by lia. change (2 ^ 0) with 1. rewrite Z.mul_1_r.
    destruct (Z.eq_dec m 0) as [M|M].
    + rewrite M, digits_0 in *. assert (e = emin) as -> by lia. rewrite Z.sub_diag. change (2 ^ 0) with 1. rewrite Z.mul_1_r, <- Em. change (Z.log2 0) with 0. lia.
    + rewrite digits_log in * by lia. set (u := e - emin). assert (0 <= u) by lia.
      assert (H2 : 0 < 2 ^ u) by (apply Z.pow_pos_nonneg; lia).
      pose proof (Z.div_mod a b ltac:(lia)) as D. rewrite <- Em in D. pose proof (Z.mod_pos_bound a b Hb) as B.
      pose proof (Z.log2_spec m ltac:(lia)) as [L1 L2]. pose proof (Z.log2_nonneg m).
      assert (X : Z.log2 (a * 2 ^ u / b) = Z.log2 m + u).
      { apply Z.log2_unique; [lia|]. unfold Z.succ in *. replace (Z.log2 m + u + 1) with (Z.log2 m + 1 + u) by lia.
        rewrite (Z.pow_add_r 2 (Z.log2 m + 1) u), (Z.pow_add_r 2 (Z.log2 m) u) by lia. split.
        - apply Z.div_le_lower_bound; [lia|]. assert (b * 2 ^ Z.log2 m <= a) by nia. nia.
        - apply Z.div_lt_upper_bound; [lia|]. assert (a + 1 <= b * 2 ^ (Z.log2 m + 1)) by nia. nia. }
      rewrite X. lia.
  - rewrite (Z.max_r 0 (emin - e)), (Z.max_l 0 (e - emin)) by lia. change (2 ^ 0) with 1. rewrite Z.mul_1_r.
    assert (H2 : 0 < 2 ^ (emin - e)) by (apply Z.pow_pos_nonneg; lia). rewrite <- Z.div_div by lia. rewrite <- Em.
    destruct (Z.eq_dec m 0) as [M|M].
    + rewrite M, digits_0, Z.div_0_l by lia. change (Z.log2 0) with 0. lia.
    + rewrite digits_log by lia. rewrite <- Z.shiftr_div_pow2 by lia. rewrite Z.log2_shiftr by lia. lia.
Qed.

Theorem round_aux s m e l a b : 0 <= a -> 0 < b -> located m l a b -> e <= fexp (Zdigits2 m + e) ->
  binary_round_aux prec emax s m e l =
  dec s (fround p (a * 2 ^ Z.max 0 (e - emin)) (b * 2 ^ Z.max 0 (emin - e))).
Proof.
  intros Ha Hb Lo Al. pose proof (log_scaled m e l a b Ha Hb Lo Al) as LS. unfold fround. rewrite LS.
  pose proof (pow_p p P0) as Q. pose proof (pow_p1 p P0) as Q1.
  assert (Hm : 0 <= m) by (rewrite (proj1 Lo); apply Z.div_pos; lia).
  set (n := fexp (Zdigits2 m + e) - e). assert (Hn : 0 <= n) by (unfold n; lia).
  set (E := fexp (Zdigits2 m + e) - emin). assert (HE : 0 <= E) by (unfold E; rewrite fexp_eq; lia).
  assert (H2n : 0 < 2 ^ n) by (apply Z.pow_pos_nonneg; lia).
  assert (H2E : 0 < 2 ^ E) by (apply Z.pow_pos_nonneg; lia).
  assert (H2u : 0 < 2 ^ Z.max 0 (e - emin)) by (apply Z.pow_pos_nonneg; lia).
  assert (H2v : 0 < 2 ^ Z.max 0 (emin - e)) by (apply Z.pow_pos_nonneg; lia).
  assert (PW : 2 ^ Z.max 0 (e - emin) * 2 ^ n = 2 ^ Z.max 0 (emin - e) * 2 ^ E).
  { rewrite <- !Z.pow_add_r by lia. f_equal. unfold n, E. lia. }
  rewrite (round_even_ratio (a * 2 ^ Z.max 0 (e - emin)) _ a (b * 2 ^ n)); [|nia|nia|].
  2:{ transitivity (a * b * (2 ^ Z.max 0 (e - emin) * 2 ^ n)); [ring|]. rewrite PW. ring. }
  unfold binary_round_aux, shr_fexp. fold n.
  destruct (shr_placed (shr_record_of_loc m l) e n a b Hn Ha Hb (placed_of _ _ _ _ Lo)) as (r & -> & PR).
  rewrite (placed_round r a (b * 2 ^ n)) by (nia || assumption).
  assert (e1 : e + n = E + emin) by (unfold n, E; lia). rewrite e1.
  set (mm := a / (b * 2 ^ n)). assert (Emm : mm = m / 2 ^ n) by (unfold mm; rewrite <- Z.div_div by lia; rewrite (proj1 Lo); reflexivity).
  assert (S : split_rank p E mm).
  { unfold split_rank. split; [lia|]. rewrite Emm. destruct (Z.eq_dec m 0) as [M|M].
    - rewrite M, Z.div_0_l by lia. split; [lia|left]. unfold E. rewrite fexp_eq in *. rewrite M, digits_0 in *. lia.
    - destruct (digits_spec m ltac:(lia)) as ((D1 & D2) & D3). split; [split|].
      + apply Z.div_pos; lia.
      + apply Z.div_lt_upper_bound; [lia|]. eapply Z.lt_le_trans; [exact D2|]. rewrite <- Z.pow_add_r by lia.
        apply Z.pow_le_mono_r; [lia|]. unfold n. rewrite fexp_eq. lia.
      + destruct (Z.eq_dec E 0) as [|NE]; [left; assumption|right]. apply Z.div_le_lower_bound; [lia|]. rewrite <- Z.pow_add_r by lia.
        eapply Z.le_trans; [|exact D1]. apply Z.pow_le_mono_r; [lia|]. unfold n, E in *. rewrite fexp_eq in *. lia. }
  destruct (round_even_cases a (b * 2 ^ n) ltac:(nia)) as (C & _ & _). fold mm in C.
  set (m1 := round_even a (b * 2 ^ n)) in *. destruct S as (_ & Sm & SD).
  destruct (Z.eq_dec m1 (2 ^ (p + 1))) as [X|X].
  - assert (DG : Zdigits2 m1 = p + 2).
    { rewrite X, digits_log by lia. rewrite Z.log2_pow2 by lia. lia. }
    replace (fexp (Zdigits2 m1 + (E + emin)) - (E + emin)) with 1 by (rewrite fexp_eq, DG; lia).
    destruct (shr_placed (shr_record_of_loc m1 loc_Exact) (E + emin) 1 m1 1 ltac:(lia) ltac:(lia) ltac:(lia) (placed_of _ _ _ _ (located_exact m1))) as (r2 & -> & PR2).
    destruct PR2 as (-> & _). change (1 * 2 ^ 1) with 2. rewrite X, Q1.
    replace (2 * 2 ^ p / 2) with (2 ^ p) by (rewrite Z.mul_comm, Z.div_mul by lia; reflexivity).
    replace (E * 2 ^ p + 2 * 2 ^ p) with ((E + 1) * 2 ^ p + 2 ^ p) by lia.
    rewrite decode_split by (unfold split_rank; lia).
    replace (2 ^ p =? 0) with false by (symmetry; apply Z.eqb_neq; lia).
    replace (E + emin + 1) with (E + 1 + emin) by lia. destruct (2 ^ p) as [|q|q]; try lia. reflexivity.
  - assert (M1 : 0 <= m1 < 2 ^ (p + 1)) by lia.
    rewrite shr_neg. 2:{ pose proof (digits_upper m1 (p + 1) ltac:(lia) ltac:(lia) ltac:(lia)). rewrite fexp_eq. lia. }
    change (shr_m (shr_record_of_loc m1 loc_Exact)) with m1.
    rewrite decode_split by (unfold split_rank; lia).
    destruct m1 as [|q|q]; [reflexivity| |lia]. reflexivity.
Qed.

(** ** Exact values *)
(** [m * 2^e] as a fraction of the smallest positive value. *)
Lemma shl_align_eq m e e' : e' < e -> shl_align m e e' = (Z.to_pos (Zpos m * 2 ^ (e - e')), e').
Proof.
  intros H. unfold shl_align. destruct (e' - e) as [|q|q] eqn:D; try lia. f_equal.
  replace (e - e') with (Zpos q) by lia. apply Pos2Z.inj. rewrite Zpower.shift_pos_correct, Zpower_pos_nat.
  rewrite Z2Pos.id by (apply Z.mul_pos_pos; [lia|apply Z.pow_pos_nonneg; lia]).
  rewrite <- Zpower_pos_nat. change (Z.pow_pos 2 q) with (2 ^ Zpos q). lia.
Qed.
Lemma shl_align_id m e e' : e <= e' -> shl_align m e e' = (m, e).
Proof. intros H. unfold shl_align. destruct (e' - e) as [|q|q] eqn:D; try lia; reflexivity. Qed.
Theorem round_exact s m e :
  binary_round prec emax s m e = dec s (fround p (Zpos m * 2 ^ Z.max 0 (e - emin)) (2 ^ Z.max 0 (emin - e))).
Proof.
  unfold binary_round. change (Zpos (digits2_pos m)) with (Zdigits2 (Zpos m)).
  destruct (Z.le_gt_cases e (fexp (Zdigits2 (Zpos m) + e))) as [L|L].
  - rewrite shl_align_id by lia. rewrite (round_aux s (Zpos m) e loc_Exact (Zpos m) 1); [|lia|lia|apply located_exact|exact L].
    rewrite Z.mul_1_l. reflexivity.
  - rewrite shl_align_eq by lia. set (f := fexp (Zdigits2 (Zpos m) + e)) in *.
    assert (H2 : 0 < 2 ^ (e - f)) by (apply Z.pow_pos_nonneg; lia).
    assert (DG : Zdigits2 (Zpos m * 2 ^ (e - f)) = Zdigits2 (Zpos m) + (e - f)).
    { rewrite !digits_log by lia. rewrite Z.log2_mul_pow2 by lia. lia. }
    assert (Hf : emin <= f) by (unfold f; rewrite fexp_eq; lia).
    rewrite Z2Pos.id by lia.
    rewrite (round_aux s _ f loc_Exact (Zpos m * 2 ^ (e - f)) 1); [|lia|lia|apply located_exact|].
    2:{ rewrite DG. replace (Zdigits2 (Zpos m) + (e - f) + f) with (Zdigits2 (Zpos m) + e) by lia. fold f. lia. }
    rewrite (Z.max_r 0 (f - emin)), (Z.max_r 0 (e - emin)), (Z.max_l 0 (emin - f)), (Z.max_l 0 (emin - e)) by lia.
    rewrite <- Z.mul_assoc, <- Z.pow_add_r by lia. replace (e - f + (f - emin)) with (e - emin) by lia. reflexivity.
Qed.
End Format.
