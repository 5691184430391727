(** Proofs for C85: from the roundings of the operations to the error of the scores. *)
From Coq Require Import List ZArith Reals Lia Lra Bool Psatz Permutation.
From Verif Require Import Base Lists Num M_Float S_Ensemble M_Ensemble S_Rounding M_Schedule L_Float L_Float2 L_Ensemble L_Rounding L_Feature4.
Import ListNotations.
Local Open Scope R_scope.

Definition val (k : Z) : R := IZR (sval k).
Lemma unit_pos : 0 < 2 ^ 149. Proof. apply pow_lt; lra. Qed.
Lemma real32_val k : real32 k = val k / 2 ^ 149.
Proof. unfold real32, val. rewrite decoded_sval. reflexivity. Qed.
Lemma IZR_unit : IZR (2 ^ 149) = 2 ^ 149.
Proof. change 149%Z with (Z.of_nat 149). rewrite <- pow_IZR. reflexivity. Qed.
Lemma IZR_24 : IZR (2 ^ 24) = 2 ^ 24.
Proof. change 24%Z with (Z.of_nat 24). rewrite <- pow_IZR. reflexivity. Qed.
Lemma tiny_unit : tiny = / 2 / 2 ^ 149.
Proof. unfold tiny. pose proof unit_pos. replace (2 ^ 150) with (2 * 2 ^ 149) by (rewrite <- tech_pow_Rmult; reflexivity). field. Qed.
Lemma roundoff_pos : 0 < roundoff.
Proof. unfold roundoff. apply Rinv_0_lt_compat, pow_lt. lra. Qed.
Lemma tiny_pos : 0 < tiny.
Proof. unfold tiny. apply Rinv_0_lt_compat, pow_lt. lra. Qed.
Lemma scaled x : Rabs (x / 2 ^ 149) = Rabs x / 2 ^ 149.
Proof. pose proof unit_pos. unfold Rdiv. rewrite Rabs_mult. rewrite (Rabs_pos_eq (/ 2 ^ 149)); [reflexivity|]. left. apply Rinv_0_lt_compat. auto. Qed.
Lemma unscale a b : a <= b -> a / 2 ^ 149 <= b / 2 ^ 149.
Proof. intros H. apply Rmult_le_compat_r; [|exact H]. left. apply Rinv_0_lt_compat, unit_pos. Qed.
Lemma real32_opp k : real32 (- k) = - real32 k.
Proof. rewrite !real32_val. unfold val. rewrite sval_opp, opp_IZR. unfold Rdiv. lra. Qed.

(** The four operations. *)
Lemma round_real n : Rabs (real32 (sround n) - IZR n / 2 ^ 149) <= roundoff * Rabs (IZR n / 2 ^ 149).
Proof.
  rewrite real32_val. replace (val (sround n) / 2 ^ 149 - IZR n / 2 ^ 149) with ((val (sround n) - IZR n) / 2 ^ 149) by (unfold Rdiv; lra).
  rewrite !scaled. unfold val. rewrite <- minus_IZR, <- !abs_IZR.
  pose proof (IZR_le _ _ (sround_err n)) as E. rewrite mult_IZR, IZR_24 in E.
  replace (roundoff * (IZR (Z.abs n) / 2 ^ 149)) with (roundoff * IZR (Z.abs n) / 2 ^ 149) by (unfold Rdiv; lra).
  apply unscale. unfold roundoff. assert (P : 0 < 2 ^ 24) by (apply pow_lt; lra).
  apply (Rmult_le_reg_l (2 ^ 24)); [exact P|]. rewrite <- Rmult_assoc, Rinv_r, Rmult_1_l by lra. exact E.
Qed.
Lemma round_nearest n : nearest32 (IZR n / 2 ^ 149) (sround n).
Proof.
  intros j. rewrite !real32_val.
  replace (val (sround n) / 2 ^ 149 - IZR n / 2 ^ 149) with ((val (sround n) - IZR n) / 2 ^ 149) by (unfold Rdiv; lra).
  replace (val j / 2 ^ 149 - IZR n / 2 ^ 149) with ((val j - IZR n) / 2 ^ 149) by (unfold Rdiv; lra).
  rewrite !scaled. apply unscale. unfold val. rewrite <- !minus_IZR, <- !abs_IZR. apply IZR_le.
  pose proof (srat_nearest n 1 j ltac:(lia)) as E. rewrite !Z.mul_1_r, <- sround_srat in E. exact E.
Qed.
Lemma rat_form k a b : IZR b <> 0 -> real32 k - IZR a / IZR b / 2 ^ 149 = IZR (sval k * b - a) / IZR b / 2 ^ 149.
Proof. intros H. pose proof unit_pos. rewrite real32_val, minus_IZR, mult_IZR. unfold val. field. lra. Qed.
Lemma rat_real a b : b <> 0%Z ->
  Rabs (real32 (srat a b) - IZR a / IZR b / 2 ^ 149) <= roundoff * Rabs (IZR a / IZR b / 2 ^ 149) + tiny.
Proof.
  intros Hb. assert (B : IZR b <> 0) by (apply not_0_IZR; exact Hb). rewrite rat_form by exact B.
  assert (AB : 0 < Rabs (IZR b)) by (apply Rabs_pos_lt; exact B).
  rewrite !scaled, tiny_unit. replace (roundoff * (Rabs (IZR a / IZR b) / 2 ^ 149) + / 2 / 2 ^ 149) with ((roundoff * Rabs (IZR a / IZR b) + / 2) / 2 ^ 149) by (unfold Rdiv; lra).
  apply unscale. unfold Rdiv. rewrite !Rabs_mult, Rabs_inv, <- abs_IZR. rewrite <- !abs_IZR. rewrite <- abs_IZR in AB.
  set (e := IZR (Z.abs (sval (srat a b) * b - a))) in *. set (bb := IZR (Z.abs b)) in *. set (aa := IZR (Z.abs a)).
  apply (Rmult_le_reg_r bb); [exact AB|]. rewrite Rmult_plus_distr_r, !Rmult_assoc, Rinv_l, !Rmult_1_r by lra.
  assert (A0 : 0 <= aa) by (apply (IZR_le 0); lia). assert (P : 0 < 2 ^ 24) by (apply pow_lt; lra). pose proof roundoff_pos.
  destruct (srat_err a b Hb) as [E|E]; apply IZR_le in E; rewrite mult_IZR in E; fold e aa bb in E.
  - rewrite IZR_24 in E. assert (e <= roundoff * aa). { unfold roundoff. apply (Rmult_le_reg_l (2 ^ 24)); [exact P|]. rewrite <- Rmult_assoc, Rinv_r, Rmult_1_l by lra. exact E. } lra.
  - pose proof (Rmult_le_pos _ _ (Rlt_le _ _ roundoff_pos) A0). lra.
Qed.
Lemma rat_nearest a b : b <> 0%Z -> nearest32 (IZR a / IZR b / 2 ^ 149) (srat a b).
Proof.
  intros Hb j. assert (B : IZR b <> 0) by (apply not_0_IZR; exact Hb). rewrite !rat_form by exact B. rewrite !scaled. apply unscale.
  unfold Rdiv. rewrite !Rabs_mult. apply Rmult_le_compat_r; [apply Rabs_pos|]. rewrite <- !abs_IZR. apply IZR_le, srat_nearest, Hb.
Qed.

Lemma add_form a b : IZR (sval a + sval b) / 2 ^ 149 = real32 a + real32 b.
Proof. rewrite plus_IZR, !real32_val. unfold val, Rdiv. lra. Qed.
Lemma sub_form a b : IZR (sval a - sval b) / 2 ^ 149 = real32 a - real32 b.
Proof. rewrite minus_IZR, !real32_val. unfold val, Rdiv. lra. Qed.
Lemma mul_form a b : IZR (sval a * sval b) / IZR (2 ^ 149) / 2 ^ 149 = real32 a * real32 b.
Proof. rewrite mult_IZR, IZR_unit, !real32_val. unfold val, Rdiv. lra. Qed.
Lemma real32_zero b : real32 b <> 0 -> sval b <> 0%Z.
Proof. intros H E. apply H. rewrite real32_val. unfold val. rewrite E. unfold Rdiv. lra. Qed.
Lemma div_form a b : real32 b <> 0 -> IZR (sval a * 2 ^ 149) / IZR (sval b) / 2 ^ 149 = real32 a / real32 b.
Proof.
  intros H. apply real32_zero in H. apply not_0_IZR in H. pose proof unit_pos.
  rewrite mult_IZR, IZR_unit, !real32_val. unfold val. field. lra.
Qed.

Theorem C85_nearest_lemma (a b : F32N) :
  nearest32 (real32 a + real32 b) (nadd (n:=F32N) a b) /\
  nearest32 (real32 a - real32 b) (nsub (n:=F32N) a b) /\
  nearest32 (real32 a * real32 b) (nmul (n:=F32N) a b) /\
  (real32 b <> 0 -> nearest32 (real32 a / real32 b) (ndiv (n:=F32N) a b)).
Proof.
  change (car F32N) with Z in a, b. split; [|split; [|split]].
  - rewrite <- add_form. apply round_nearest.
  - rewrite <- sub_form. apply round_nearest.
  - rewrite <- mul_form. apply rat_nearest. lia.
  - intros H. rewrite <- div_form by exact H. apply rat_nearest, real32_zero, H.
Qed.
Theorem C85_operations_lemma (a b : F32N) :
  Rabs (real32 (nadd (n:=F32N) a b) - (real32 a + real32 b)) <= roundoff * Rabs (real32 a + real32 b) /\
  Rabs (real32 (nsub (n:=F32N) a b) - (real32 a - real32 b)) <= roundoff * Rabs (real32 a - real32 b) /\
  Rabs (real32 (nmul (n:=F32N) a b) - real32 a * real32 b) <= roundoff * Rabs (real32 a * real32 b) + tiny /\
  (real32 b <> 0 -> Rabs (real32 (ndiv (n:=F32N) a b) - real32 a / real32 b) <= roundoff * Rabs (real32 a / real32 b) + tiny).
Proof.
  change (car F32N) with Z in a, b. split; [|split; [|split]].
  - rewrite <- add_form. apply round_real.
  - rewrite <- sub_form. apply round_real.
  - rewrite <- mul_form. apply rat_real. lia.
  - intros H. rewrite <- div_form by exact H. apply rat_real, real32_zero, H.
Qed.
Lemma add_zero (b : F32N) : nadd (n:=F32N) nzero b = b.
Proof. change (sround (sval 0 + sval b) = b). change (sval 0) with 0%Z. rewrite Z.add_0_l. apply sround_exact. Qed.

(** ** Sums, in any order and with any bracketing *)
Notation g k := ((1 + roundoff) ^ k).
Lemma g_ge1 k : 1 <= g k.
Proof. apply pow_R1_Rle. pose proof roundoff_pos. lra. Qed.
Lemma g_mono k : g k <= g (S k).
Proof. rewrite <- tech_pow_Rmult. pose proof (g_ge1 k). pose proof roundoff_pos. nra. Qed.
Lemma g_le j k : (j <= k)%nat -> g j <= g k.
Proof. intros H. induction H; [lra|]. eapply Rle_trans; [exact IHle|]. apply g_mono. Qed.

Definition close_to (s : F32N) (p : R) : Prop := Rabs (real32 s - p) <= roundoff * Rabs p + tiny.
Definition bound (n : nat) (M : R) : R := (g n - 1) * M + INR n * g n * tiny.
Definition weight (ps : list R) : R := Rtotal (map Rabs ps).
Lemma weight_bounds ps : Rabs (Rtotal ps) <= weight ps.
Proof. unfold weight, Rtotal. induction ps as [|x l IH]; cbn [map fold_right]; [rewrite Rabs_R0; lra|]. eapply Rle_trans; [apply Rabs_triang|]. lra. Qed.
Lemma weight_app ps qs : weight (ps ++ qs) = weight ps + weight qs.
Proof. unfold weight. rewrite map_app. apply Rtotal_app. Qed.

(** Two sums of [n] and [k] parts added. *)
Lemma joined n k (y s : F32N) Y p M P : (1 <= n)%nat -> (1 <= k)%nat -> Rabs Y <= M -> Rabs p <= P ->
  Rabs (real32 y - Y) <= bound n M -> Rabs (real32 s - p) <= bound k P ->
  Rabs (real32 (nadd (n:=F32N) y s) - (Y + p)) <= bound (n + k) (M + P).
Proof.
  intros Hn Hk HY Hp Ey Es. destruct (C85_operations_lemma y s) as (Ea & _). unfold bound in *.
  pose proof roundoff_pos as U. pose proof tiny_pos as T.
  assert (G1 : (1 + roundoff) * g n <= g (n + k)) by (rewrite tech_pow_Rmult; apply g_le; lia).
  assert (G2 : (1 + roundoff) * g k <= g (n + k)) by (rewrite tech_pow_Rmult; apply g_le; lia).
  set (gn := g n) in *. set (gk := g k) in *. set (gnk := g (n + k)) in *. rewrite plus_INR.
  set (u := roundoff) in *. set (t := tiny) in *.
  set (z := real32 (nadd (n:=F32N) y s)) in *. set (vy := real32 y) in *. set (vs := real32 s) in *.
  assert (D : Rabs (vy + vs - (Y + p)) <= Rabs (vy - Y) + Rabs (vs - p)).
  { replace (vy + vs - (Y + p)) with ((vy - Y) + (vs - p)) by lra. apply Rabs_triang. }
  assert (Z1 : Rabs (vy + vs) <= Rabs (vy + vs - (Y + p)) + Rabs (Y + p)).
  { replace (vy + vs) with ((vy + vs - (Y + p)) + (Y + p)) at 1 by lra. apply Rabs_triang. }
  assert (Z2 : Rabs (Y + p) <= M + P). { eapply Rle_trans; [apply Rabs_triang|]. lra. }
  assert (Z3 : Rabs (z - (Y + p)) <= Rabs (z - (vy + vs)) + Rabs (vy + vs - (Y + p))).
  { replace (z - (Y + p)) with ((z - (vy + vs)) + (vy + vs - (Y + p))) by lra. apply Rabs_triang. }
  assert (M0 : 0 <= M) by (pose proof (Rabs_pos Y); lra). assert (P0 : 0 <= P) by (pose proof (Rabs_pos p); lra).
  set (e := Rabs (vy + vs - (Y + p))) in *. set (ey := Rabs (vy - Y)) in *. set (es := Rabs (vs - p)) in *.
  assert (B1 : Rabs (z - (Y + p)) <= (1 + u) * (ey + es) + u * (M + P)) by nra.
  set (nn := INR n) in *. assert (N0 : 0 <= nn) by apply pos_INR. set (kk := INR k) in *. assert (K0 : 0 <= kk) by apply pos_INR.
  assert (B2 : (1 + u) * (ey + es) <= (1 + u) * ((gn - 1) * M + nn * gn * t + ((gk - 1) * P + kk * gk * t))) by (apply Rmult_le_compat_l; lra).
  assert (B3 : ((1 + u) * gn - 1) * M <= (gnk - 1) * M) by (apply Rmult_le_compat_r; lra).
  assert (B4 : ((1 + u) * gk - 1) * P <= (gnk - 1) * P) by (apply Rmult_le_compat_r; lra).
  assert (B5 : (1 + u) * gn * (nn * t) <= gnk * (nn * t)) by (apply Rmult_le_compat_r; [apply Rmult_le_pos; lra|lra]).
  assert (B6 : (1 + u) * gk * (kk * t) <= gnk * (kk * t)) by (apply Rmult_le_compat_r; [apply Rmult_le_pos; lra|lra]).
  nra.
Qed.
Lemma add_zero_r (b : F32N) : nadd (n:=F32N) b nzero = b.
Proof. change (sround (sval b + sval 0) = b). change (sval 0) with 0%Z. rewrite Z.add_0_r. apply sround_exact. Qed.

(** Sums of nothing are zero. *)
Lemma summed_none (l : list F32N) x : summed l x -> l = [] -> x = nzero (n:=F32N).
Proof.
  induction 1 as [|x|l1 l2 a b H1 I1 H2 I2|l l' a P H IH]; intros E; [reflexivity|discriminate| |].
  - apply app_eq_nil in E as (-> & ->). rewrite (I1 eq_refl), (I2 eq_refl). exact (add_zero (nzero (n:=F32N))).
  - subst l'. apply IH. apply Permutation_nil. symmetry. exact P.
Qed.
Lemma summed_error (l : list F32N) x : summed l x -> forall ps, Forall2 close_to l ps ->
  Rabs (real32 x - Rtotal ps) <= bound (length l) (weight ps).
Proof.
  induction 1 as [|x|l1 l2 a b H1 I1 H2 I2|l l' a P H IH]; intros ps F.
  - inversion F; subst. change (real32 (nzero (n:=F32N))) with (0 / 2 ^ 149). unfold bound, weight, Rtotal. cbn [map fold_right length].
    replace (0 / 2 ^ 149 - 0) with 0 by (unfold Rdiv; lra). rewrite Rabs_R0. change (INR 0) with 0. lra.
  - inversion F as [|? p ? ? C F2]; subst. inversion F2; subst. unfold close_to in C. unfold bound, weight, Rtotal. cbn [map fold_right length].
    rewrite !Rplus_0_r, pow_1. change (INR 1) with 1. pose proof roundoff_pos. pose proof tiny_pos. nra.
  - apply Forall2_app_inv_l in F as (p1 & p2 & F1 & F2 & ->). rewrite Rtotal_app, weight_app, app_length.
    specialize (I1 _ F1). specialize (I2 _ F2). change (nf32 (nadd (n:=F32N) a b)) with (nadd (n:=F32N) a b).
    destruct l1 as [|x1 l1].
    { rewrite (summed_none _ _ H1 eq_refl), add_zero. inversion F1; subst. cbn [length Nat.add]. unfold weight at 1. cbn [map].
      unfold Rtotal at 1 2. cbn [fold_right]. rewrite !Rplus_0_l. exact I2. }
    destruct l2 as [|x2 l2].
    { rewrite (summed_none _ _ H2 eq_refl), add_zero_r. inversion F2; subst. cbn [length]. rewrite Nat.add_0_r. unfold weight at 2. cbn [map].
      unfold Rtotal at 2 3. cbn [fold_right]. rewrite !Rplus_0_r. exact I1. }
    apply joined; auto using weight_bounds; cbn [length]; lia.
  - destruct (Permutation_Forall2 (Permutation_sym P) F) as (ps0 & P2 & F2). specialize (IH _ F2).
    rewrite (Permutation_length (Permutation_sym P)). rewrite (Rtotal_perm _ _ P2). unfold weight. rewrite (Rtotal_perm _ _ (Permutation_map Rabs P2)). exact IH.
Qed.
Lemma summed_fold (l : list F32N) : forall acc y, summed acc y -> summed (acc ++ l) (fold_left (fun y s : F32N => nf32 (nadd y s)) l y).
Proof.
  induction l as [|s l IH]; intros acc y H; cbn [fold_left]; [rewrite app_nil_r; exact H|].
  change (s :: l) with ([s] ++ l). rewrite app_assoc. apply IH. apply summed_add; [exact H|apply summed_one].
Qed.

(** ** Scores *)
Lemma parts_close ws ts row : Forall2 close_to (tree_scores (N:=F32N) ws ts row) (exact_parts ws ts row).
Proof.
  unfold tree_scores, exact_parts. induction (combine ws ts) as [|[w t] l IH]; cbn [map]; constructor; [|exact IH].
  cbn [fst snd]. unfold close_to. rewrite (Rmult_comm (real32 w)). apply (C85_operations_lemma (snd (exit_leaf row t)) w).
Qed.
Lemma sum_within ws ts row x : length ws = length ts -> summed (tree_scores (N:=F32N) ws ts row) x ->
  Rabs (real32 x - exact_score ws ts row) <= score_error ws ts row.
Proof.
  intros L S. pose proof (summed_error _ _ S _ (parts_close ws ts row)) as E.
  unfold score_error, exact_score, mass. unfold bound, weight in E.
  replace (length (tree_scores ws ts row)) with (length ts) in E; [exact E|].
  unfold tree_scores. rewrite map_length, combine_length, L, Nat.min_id. reflexivity.
Qed.
Lemma score_summed ws ts row : summed (tree_scores (N:=F32N) ws ts row) (ensemble_score ws ts row).
Proof. unfold ensemble_score. apply (summed_fold (tree_scores ws ts row) []), summed_nil. Qed.
Lemma score_within ws ts row : length ws = length ts ->
  Rabs (real32 (ensemble_score (N:=F32N) ws ts row) - exact_score ws ts row) <= score_error ws ts row.
Proof. intros L. apply sum_within; [exact L|apply score_summed]. Qed.

Theorem C85_score_lemma (e : ensemble F32N) ts ws X : encodes e ts ws -> (forall row, In row X -> covers row ts) ->
  exists ys, basic_scoring e X = Ok ys /\
    Forall2 (fun row y => Rabs (real32 y - exact_score ws ts row) <= score_error ws ts row) X ys.
Proof.
  intros EN C. exists (map (ensemble_score ws ts) X). split; [exact (L_Ensemble.C31_lemma e ts ws X EN C)|].
  destruct EN as (_ & _ & _ & L & _). clear C. induction X as [|row X IH]; constructor; [|exact IH]. apply score_within, L.
Qed.
