(** Proofs: rounding features and thresholds to float32. *)
From Coq Require Import List ZArith Lia Bool SpecFloat.
From Verif Require Import Base Lists Num M_Text M_Dataset M_Ensemble S_Ensemble M_Float M_Loaders M_TextLoaders S_Svmlight S_Loaders M_IEEE S_IEEE S_Twins S_Doubles L_Ensemble L_QuickRank L_Twins4 L_Float L_Float2 L_IEEE L_IEEE2 L_IEEE3 L_IEEE4 L_Missing.
Import ListNotations.
Local Open Scope Z_scope.

Lemma fround_mono p a a' b : 1 <= p -> 0 <= a <= a' -> 0 < b -> fround p a b <= fround p a' b.
Proof.
  intros P A B. destruct (Z.eq_dec a a') as [->|NE]; [lia|].
  destruct (fround_parts p ltac:(lia) a b ltac:(lia) B) as (k & K & (K1 & K2) & R & _).
  destruct (fround_parts p ltac:(lia) a' b ltac:(lia) B) as (k' & K' & (K1' & K2') & R' & _ & R3).
  assert (k < k' + 1). { apply (fval_lt_inv p ltac:(lia)); try lia. nia. }
  destruct (Z.eq_dec k k') as [->|N]; [|lia]. destruct R as [(-> & _)|(-> & R)]; [lia|]. rewrite R3; lia.
Qed.

Section Format.
Variables p emax : Z.
Hypothesis P1 : 1 <= p.
Hypothesis E1 : p + 1 < emax.
Lemma top_pos : 0 < top p emax.
Proof. unfold top. pose proof (Z.pow_pos_nonneg 2 p). nia. Qed.
Lemma decode_top s k : top p emax <= k -> decode p emax s k = S754_infinity s.
Proof.
  intros L. pose proof (Z.pow_pos_nonneg 2 p ltac:(lia) ltac:(lia)). unfold top in L. unfold decode.
  assert (2 * emax - 1 <= k / 2 ^ p) by (apply Z.div_le_lower_bound; lia).
  destruct (Z.eqb_spec (k / 2 ^ p) 0); [lia|]. destruct (Z.ltb_spec (k / 2 ^ p) (2 * emax - 1)); [lia|reflexivity].
Qed.
Lemma compare_all s1 k1 s2 k2 : 0 <= k1 -> 0 <= k2 ->
  SFcompare (decode p emax s1 k1) (decode p emax s2 k2) =
  Some (cond_Zopp s1 (Z.min k1 (top p emax)) ?= cond_Zopp s2 (Z.min k2 (top p emax))).
Proof.
  intros H1 H2. pose proof top_pos as T.
  assert (FIN : forall s k, 0 <= k < top p emax -> match decode p emax s k with S754_zero _ | S754_finite _ _ _ => True | _ => False end).
  { intros s k H. destruct (decode_cases p emax P1 E1 s k H) as [(_ & ->)|(m & e & _ & -> & _)]; exact I. }
  destruct (Z.lt_ge_cases k1 (top p emax)) as [L1|L1], (Z.lt_ge_cases k2 (top p emax)) as [L2|L2].
  - rewrite !Z.min_l by lia. apply (compare_decode p emax P1 E1); lia.
  - rewrite (decode_top s2 k2 L2), (Z.min_l k1), (Z.min_r k2) by lia. pose proof (FIN s1 k1 ltac:(lia)) as F.
    destruct (decode p emax s1 k1); try contradiction; cbn [SFcompare]; f_equal; symmetry;
      destruct s2; cbn [cond_Zopp]; first [apply (proj2 (Z.compare_gt_iff _ _))|apply (proj2 (Z.compare_lt_iff _ _))]; destruct s1; cbn [cond_Zopp]; lia.
  - rewrite (decode_top s1 k1 L1), (Z.min_l k2), (Z.min_r k1) by lia. pose proof (FIN s2 k2 ltac:(lia)) as F.
    destruct (decode p emax s2 k2); try contradiction; cbn [SFcompare]; f_equal; symmetry;
      destruct s1; cbn [cond_Zopp]; first [apply (proj2 (Z.compare_gt_iff _ _))|apply (proj2 (Z.compare_lt_iff _ _))]; destruct s2; cbn [cond_Zopp]; lia.
  - rewrite (decode_top s1 k1 L1), (decode_top s2 k2 L2), !Z.min_r by lia.
    destruct s1, s2; cbn [SFcompare cond_Zopp]; f_equal; symmetry; first [apply Z.compare_gt_iff; lia|apply Z.compare_lt_iff; lia|apply Z.compare_eq_iff; lia].
Qed.
(** Every value but NaN is the one of a rank up to the one of infinity. *)
Lemma valid_rank x : valid_binary (p + 1) emax x = true -> x <> S754_nan ->
  exists s k, 0 <= k <= top p emax /\ x = decode p emax s k.
Proof.
  intros V N. pose proof top_pos. destruct x as [s|s| |s m e]; [| |contradiction|].
  - exists s, 0. split; [lia|]. rewrite decode_0; auto.
  - exists s, (top p emax). split; [lia|]. rewrite decode_top; auto; lia.
  - destruct (proj1 (finite_value_decode p emax (S754_finite s m e) P1 E1)) as (s' & j & J & D); [split; [exact V|exact I]|].
    exists s', j. unfold top. split; [lia|exact D].
Qed.
End Format.

Definition rounded_rank (j : Z) : Z := if j <? top 52 1024 then fround 23 (fval 52 j) (2 ^ 925) else top 23 128.
Lemma rounded_decode s j : 0 <= j <= top 52 1024 -> to_float32 (decode 52 1024 s j) = decode 23 128 s (rounded_rank j).
Proof.
  intros H. unfold rounded_rank. destruct (Z.ltb_spec j (top 52 1024)) as [L|L].
  - change (decode 52 1024 s j) with (bits64 s j). rewrite double_to_float by (unfold top in L; lia).
    assert (R : 0 <= fround 23 (fval 52 j) (2 ^ 925)). { apply fround_nn; [apply fval_nonneg; lia|reflexivity]. }
    unfold f32_of_rank. destruct (Z.ltb_spec (fround 23 (fval 52 j) (2 ^ 925)) f32_top) as [Q|Q]; [reflexivity|].
    cbn [ieee_f32]. rewrite decode_top; [reflexivity|lia|lia|exact Q].
  - rewrite (decode_top 52 1024) by (lia || exact L). rewrite decode_top by lia. reflexivity.
Qed.
Lemma rounded_rank_nonneg j : 0 <= j -> 0 <= rounded_rank j.
Proof. intros H. unfold rounded_rank. destruct (_ <? _); [apply fround_nn; [apply fval_nonneg; lia|reflexivity]|discriminate]. Qed.
Lemma rounded_rank_mono i j : 0 <= i <= j -> Z.min (rounded_rank i) (top 23 128) <= Z.min (rounded_rank j) (top 23 128).
Proof.
  intros H. unfold rounded_rank. destruct (Z.ltb_spec i (top 52 1024)) as [A|A], (Z.ltb_spec j (top 52 1024)) as [B|B]; try lia.
  apply Z.min_le_compat_r. apply fround_mono; [lia| |reflexivity]. split; [apply fval_nonneg; lia|]. apply fval_le; lia.
Qed.
Lemma rounded_rank_0 : rounded_rank 0 = 0.
Proof. vm_compute. reflexivity. Qed.

Lemma to_float32_nan x : is_nan (to_float32 x) = is_nan x.
Proof.
  destruct x as [s|s| |s m e]; try reflexivity. cbn [is_nan to_float32].
  pose proof (br_not_nan 24 128 s m e). destruct (binary_round 24 128 s m e); try reflexivity. contradiction.
Qed.
(** Rounding is monotone; it can only make values equal. *)
Theorem rounded_comparison x t : valid_binary 53 1024 x = true -> valid_binary 53 1024 t = true ->
  SFleb (to_float32 x) (to_float32 t) = SFleb x t || SFeqb (to_float32 x) (to_float32 t).
Proof.
  intros VX VT. destruct (is_nan x) eqn:NX; [destruct x; try discriminate; reflexivity|]. destruct (is_nan t) eqn:NT.
  { destruct t; try discriminate. cbn [to_float32]. generalize (to_float32 x) as u. intros u. destruct u, x; reflexivity. }
  assert (QX : x <> S754_nan) by (intros ->; discriminate). assert (QT : t <> S754_nan) by (intros ->; discriminate).
  destruct (valid_rank 52 1024 ltac:(lia) ltac:(lia) x VX QX) as (s & j & J & ->). destruct (valid_rank 52 1024 ltac:(lia) ltac:(lia) t VT QT) as (s' & j' & J' & ->).
  rewrite !rounded_decode by assumption. unfold SFleb, SFeqb.
  rewrite !(compare_all 23 128 ltac:(lia) ltac:(lia)) by (apply rounded_rank_nonneg; lia). rewrite (compare_all 52 1024) by lia.
  rewrite (Z.min_l j), (Z.min_l j') by lia.
  pose proof (rounded_rank_mono j j') as M1. pose proof (rounded_rank_mono j' j) as M2.
  pose proof (rounded_rank_mono 0 j) as M3. pose proof (rounded_rank_mono 0 j') as M4. rewrite rounded_rank_0 in M3, M4. change (Z.min 0 (top 23 128)) with 0 in M3, M4.
  set (u := Z.min (rounded_rank j) (top 23 128)) in *. set (v := Z.min (rounded_rank j') (top 23 128)) in *.
  assert (Z0 : j = 0 -> u = 0) by (intros E; unfold u; rewrite E, rounded_rank_0; reflexivity).
  assert (Z1 : j' = 0 -> v = 0) by (intros E; unfold v; rewrite E, rounded_rank_0; reflexivity).
  destruct (Z.compare_spec (cond_Zopp s u) (cond_Zopp s' v)) as [C|C|C]; destruct (Z.compare_spec (cond_Zopp s j) (cond_Zopp s' j')) as [D|D|D]; try reflexivity; exfalso;
    destruct s, s'; cbn [cond_Zopp] in C, D; lia.
Qed.
(** What float32 holds is not changed. *)
Lemma float32_fixed x : valid_binary 24 128 x = true -> to_float32 x = x.
Proof.
  intros V. destruct x as [s|s| |s m e]; try reflexivity. cbn [to_float32].
  destruct (proj1 (finite_value_decode 23 128 (S754_finite s m e) p23 e128)) as (s' & j & J & D); [split; [exact V|exact I]|].
  destruct (decode_cases 23 128 p23 e128 s' j J) as [(_ & Q)|(m' & e' & K & Q & (S0 & _) & Vv & _)]; [congruence|].
  rewrite Q in D. injection D as <- <- <-. change 24 with (23 + 1). rewrite (round_exact 23 128 p23 e128).
  replace (fround 23 _ _) with j; [exact Q|].
  assert (E32 : emin (23 + 1) 128 = -149) by reflexivity. rewrite E32 in *.
  rewrite <- (fround_exact 23 ltac:(lia) j 1) by lia. apply fround_ratio; [lia|apply Z.pow_pos_nonneg; lia|]. rewrite Vv. rewrite (Z.max_r 0 (e - -149)), (Z.max_l 0 (-149 - e)) by lia. change (2 ^ 0) with 1. lia.
Qed.

Lemma to_float32_valid x : valid_binary 53 1024 x = true -> valid_binary 24 128 (to_float32 x) = true.
Proof.
  intros V. destruct (is_nan x) eqn:NX; [destruct x; try discriminate; reflexivity|]. assert (QX : x <> S754_nan) by (intros ->; discriminate).
  destruct (valid_rank 52 1024 ltac:(lia) ltac:(lia) x V QX) as (s & j & J & ->). rewrite rounded_decode by exact J.
  pose proof (rounded_rank_nonneg j ltac:(lia)) as R. destruct (Z.lt_ge_cases (rounded_rank j) (top 23 128)) as [L|L].
  - apply (proj2 (finite_value_decode 23 128 (decode 23 128 s (rounded_rank j)) p23 e128)). exists s, (rounded_rank j). unfold top in L. split; [lia|reflexivity].
  - rewrite decode_top by (lia || exact L). reflexivity.
Qed.

Lemma fval_every p m x : 0 <= p -> 0 <= m < 2 ^ (p + 1) -> 0 <= x -> exists k, 0 <= k /\ fval p k = m * 2 ^ x.
Proof.
  intros P M X. revert m M. pattern x. apply natlike_ind; [| |exact X]; clear x X.
  - intros m M. exists (0 * 2 ^ p + m). split; [lia|]. apply fval_low; [lia|]. unfold split_rank. lia.
  - intros x X IH m M. rewrite Z.pow_succ_r by exact X. rewrite Z.pow_add_r in M by lia. destruct (Z.lt_ge_cases m (2 ^ p)) as [L|L].
    + destruct (IH (2 * m)) as (k & K & E); [rewrite Z.pow_add_r by lia; lia|]. exists k. split; [exact K|]. rewrite E. lia.
    + exists (Z.succ x * 2 ^ p + m). split; [pose proof (Z.pow_pos_nonneg 2 p); nia|]. rewrite <- Z.pow_succ_r by exact X.
      apply fval_low; [lia|]. unfold split_rank. rewrite Z.pow_add_r by lia. lia.
Qed.
Lemma widen_rank s j : 0 <= j < top 23 128 -> exists k, 0 <= k < top 52 1024 /\ fval 52 k = fval 23 j * 2 ^ 925 /\ widen (decode 23 128 s j) = decode 52 1024 s k.
Proof.
  intros J. destruct (decode_cases 23 128 p23 e128 s j J) as [(-> & Q)|(m & e & K & Q & (S0 & M & _) & V & _)]; rewrite Q.
  - exists 0. rewrite (decode_0 52 1024) by lia. vm_compute. repeat split; discriminate.
  - change (SpecFloat.emin (23 + 1) 128) with (-149) in *. assert (E : 0 <= e + 1074) by lia.
    destruct (fval_every 52 (Zpos m) (e + 1074)) as (k & K0 & F); [lia| |exact E|].
    { split; [lia|]. eapply Z.lt_le_trans; [apply M|]. apply Z.pow_le_mono_r; lia. }
    assert (FE : fval 52 k = fval 23 j * 2 ^ 925).
    { rewrite F, V. rewrite <- Z.mul_assoc, <- Z.pow_add_r by lia. f_equal. f_equal. lia. }
    assert (KT : k < top 52 1024).
    { apply (fval_lt_inv 52 ltac:(lia)); [discriminate| |exact K0]. rewrite FE. apply Z.lt_trans with (fval 23 (top 23 128) * 2 ^ 925); [|vm_compute; reflexivity].
      apply Z.mul_lt_mono_pos_r; [reflexivity|]. apply fval_lt; lia. }
    exists k. split; [lia|]. split; [exact FE|]. cbn [widen]. change 53 with (52 + 1). rewrite (round_exact 52 1024) by lia. f_equal.
    change (SpecFloat.emin (52 + 1) 1024) with (-1074). rewrite (Z.max_r 0 (e - -1074)), (Z.max_l 0 (-1074 - e)) by lia. change (2 ^ 0) with 1.
    replace (e - -1074) with (e + 1074) by lia. rewrite <- F, <- (Z.mul_1_r (fval 52 k)). apply fround_exact; lia.
Qed.
Theorem widen_exact y : valid_binary 24 128 y = true -> valid_binary 53 1024 (widen y) = true /\ to_float32 (widen y) = y.
Proof.
  intros V. destruct y as [s|s| |s m e]; try (split; reflexivity).
  destruct (proj1 (finite_value_decode 23 128 (S754_finite s m e) p23 e128)) as (s' & j & J & D); [split; [exact V|exact I]|]. rewrite D.
  destruct (widen_rank s' j J) as (k & K & F & E). rewrite E. split.
  - apply (proj2 (finite_value_decode 52 1024 (decode 52 1024 s' k) ltac:(lia) ltac:(lia))). exists s', k. split; [exact K|reflexivity].
  - rewrite rounded_decode by lia. unfold rounded_rank. destruct (Z.ltb_spec k (top 52 1024)); [|lia]. rewrite F. f_equal. apply fround_exact; [lia|lia|reflexivity].
Qed.
Lemma equal_widened a b : valid_binary 24 128 a = true -> valid_binary 24 128 b = true -> SFeqb a b = true -> SFleb (widen a) (widen b) = true.
Proof.
  intros VA VB E. pose proof (rounded_comparison (widen b) (widen a) (proj1 (widen_exact b VB)) (proj1 (widen_exact a VA))) as R.
  rewrite (proj2 (widen_exact a VA)), (proj2 (widen_exact b VB)) in R.
  destruct (is_nan a) eqn:NA; [destruct a; discriminate|]. destruct (is_nan b) eqn:NB; [destruct a, b; discriminate|].
  assert (QA : a <> S754_nan) by (intros ->; discriminate). assert (QB : b <> S754_nan) by (intros ->; discriminate). clear R NA NB.
  destruct (valid_rank 23 128 ltac:(lia) ltac:(lia) a VA QA) as (s & j & J & ->). destruct (valid_rank 23 128 ltac:(lia) ltac:(lia) b VB QB) as (s' & j' & J' & ->).
  unfold SFeqb in E. rewrite (compare_all 23 128) in E by lia. destruct (Z.compare_spec (cond_Zopp s (Z.min j (top 23 128))) (cond_Zopp s' (Z.min j' (top 23 128)))) as [C| |]; try discriminate.
  rewrite !Z.min_l in C by lia. destruct (Z.eq_dec j 0) as [->|NJ].
  - assert (j' = 0) as -> by (destruct s, s'; cbn [cond_Zopp] in C; lia). rewrite !(decode_0 23 128) by lia. destruct s, s'; reflexivity.
  - assert (s = s' /\ j = j') as (<- & <-) by (destruct s, s'; cbn [cond_Zopp] in C; split; (reflexivity || lia)).
    assert (VW : valid_binary 53 1024 (widen (decode 23 128 s j)) = true) by (apply widen_exact, VA).
    assert (NW : widen (decode 23 128 s j) <> S754_nan).
    { intros N. apply QA. rewrite <- (proj2 (widen_exact _ VA)), N. reflexivity. }
    destruct (valid_rank 52 1024 ltac:(lia) ltac:(lia) _ VW NW) as (t & k & K & ->). unfold SFleb. rewrite (compare_all 52 1024) by lia. rewrite Z.compare_refl. reflexivity.
Qed.
Lemma short_valid x : short x -> valid_binary 53 1024 x = true.
Proof. intros (y & V & ->). apply widen_exact, V. Qed.

(** ** Trees *)
Lemma nth_rounded (row : list IEEE64) n : nth n (map to_float32 row) (nzero (n:=IEEE32)) = to_float32 (nth n row (nzero (n:=IEEE64))).
Proof. change (nzero (n:=IEEE32)) with (to_float32 (nzero (n:=IEEE64))). apply map_nth. Qed.
Lemma valid_nth64 (row : list IEEE64) n : Forall (fun x => valid_binary 53 1024 x = true) row -> valid_binary 53 1024 (nth n row (nzero (n:=IEEE64))) = true.
Proof. intros V. destruct (nth_in_or_default n row (nzero (n:=IEEE64))) as [H|E]; [rewrite Forall_forall in V; auto|rewrite E; reflexivity]. Qed.
Theorem rounded_exit {A} (row : list IEEE64) (t : tree A IEEE64) :
  Forall (fun x => valid_binary 53 1024 x = true) row -> Forall (fun x => valid_binary 53 1024 x = true) (thresholds t) -> undisturbed_path row t ->
  exit_leaf (N:=IEEE32) (map to_float32 row) (convert to_float32 to_float32 t) =
  (fst (exit_leaf (N:=IEEE64) row t), to_float32 (snd (exit_leaf (N:=IEEE64) row t))).
Proof.
  intros V. induction t as [a v|a f thr l IHl r IHr]; cbn [thresholds convert exit_leaf undisturbed_path]; intros T U; [reflexivity|].
  inversion T as [|? ? T1 T2]; subst. apply Forall_app in T2 as (T2 & T3). rewrite nth_rounded. destruct U as (U1 & U2).
  assert (E : nleb (n:=IEEE32) (to_float32 (nth (Z.to_nat f) row (nzero (n:=IEEE64)))) (to_float32 thr) = nleb (n:=IEEE64) (nth (Z.to_nat f) row (nzero (n:=IEEE64))) thr).
  { cbn [nleb IEEE32 IEEE64 IEEE]. cbn [neqb nleb IEEE32 IEEE64 IEEE] in U1. rewrite (rounded_comparison _ thr (valid_nth64 row _ V) T1).
    destruct (SFeqb _ _); [rewrite U1 by reflexivity; reflexivity|]. apply orb_false_r. }
  rewrite E. destruct (nleb (n:=IEEE64) _ thr); auto.
Qed.
Theorem disturbed_only {A} (row : list IEEE64) (t : tree A IEEE64) : undisturbed row t -> undisturbed_path row t.
Proof.
  induction t as [a v|a f thr l IHl r IHr]; cbn [undisturbed undisturbed_path]; [auto|]. intros (U & L & R). split; [exact U|].
  destruct (nleb _ _); auto.
Qed.
(** Thresholds that float32 holds: rows of float32 values are never disturbed. *)
Theorem short_undisturbed {A} (row : list IEEE64) (t : tree A IEEE64) : Forall short row -> Forall short (thresholds t) -> undisturbed row t.
Proof.
  intros R. induction t as [a v|a f thr l IHl r IHr]; cbn [undisturbed thresholds]; [auto|]. intros T.
  inversion T as [|? ? T1 T2]; subst. apply Forall_app in T2 as (T2 & T3). split; [|auto].
  assert (S : short (nth (Z.to_nat f) row (nzero (n:=IEEE64)))).
  { destruct (nth_in_or_default (Z.to_nat f) row (nzero (n:=IEEE64))) as [H|E]; [rewrite Forall_forall in R; auto|rewrite E; exists (S754_zero false); split; reflexivity]. }
  destruct S as (y & VY & EY). destruct T1 as (u & VU & EU). subst thr. cbn [neqb nleb IEEE32 IEEE64 IEEE] in *. rewrite EY.
  rewrite (proj2 (widen_exact y VY)), (proj2 (widen_exact u VU)). apply equal_widened; assumption.
Qed.
Theorem rounded_model (e : ensemble IEEE32) (ts : list (tree unit IEEE64)) (ws : list IEEE32) (X : list (list IEEE64)) :
  holds (N:=IEEE32) e (map (convert to_float32 to_float32) ts) ws ->
  Forall (fun t => Forall (fun x => valid_binary 53 1024 x = true) (thresholds t)) ts -> fit_rows ts X ->
  basic_scoring e (map (map to_float32) X) = Ok (map (rounded_score ws ts) X).
Proof.
  intros (us & (L & _) & E) T F. rewrite (C31_lemma (N:=IEEE32) e us ws _ L).
  - f_equal. rewrite map_map. apply map_ext_in. intros row Hr. destruct (F row Hr) as (V & Q). unfold ensemble_score, tree_scores, rounded_score.
    clear - E T V Q. revert ws. generalize (nzero (n:=IEEE32)) as y. revert us E.
    induction ts as [|t ts IH]; intros us E y ws; destruct us as [|u us]; try discriminate; [destruct ws; reflexivity|].
    destruct ws as [|w ws]; [reflexivity|]. cbn [combine map fold_left fst snd]. inversion T as [|? ? T1 T2]; subst. inversion Q as [|? ? (Q1 & Q2) Q3]; subst.
    cbn [map] in E. injection E as E1 E2.
    replace (snd (exit_leaf (N:=IEEE32) (map to_float32 row) u)) with (to_float32 (snd (exit_leaf (N:=IEEE64) row t))); [apply IH; assumption|].
    rewrite (exit_erase (N:=IEEE32) (map to_float32 row) u).
    assert (EX : exit_leaf (N:=IEEE32) (map to_float32 row) (erase u) = exit_leaf (N:=IEEE32) (map to_float32 row) (convert to_float32 to_float32 t)) by (f_equal; exact E1).
    rewrite EX, rounded_exit by assumption. reflexivity.
  - intros row Hr. apply in_map_iff in Hr as (row0 & <- & H0). destruct (F row0 H0) as (_ & Q). unfold covers. rewrite map_length.
    clear - E Q. revert us E. induction ts as [|t ts IH]; intros us E; destruct us as [|u us]; try discriminate; [constructor|].
    cbn [map] in E. injection E as E1 E2. inversion Q as [|? ? (Q1 & _) Q3]; subst. constructor; [|apply IH; assumption].
    assert (ES : splits u = splits t).
    { rewrite <- (splits_erase u). transitivity (splits (convert to_float32 to_float32 t)); [f_equal; exact E1|apply splits_convert]. }
    rewrite ES. exact Q1.
Qed.

Section Loaders.
Variable rd : text -> option IEEE64.
Hypothesis R : reads_doubles rd.
Lemma double_valid t : valid_binary 53 1024 (to_double rd t) = true.
Proof. unfold to_double. destruct (rd t) eqn:E; [apply (R t), E|reflexivity]. Qed.
Lemma single_cell t : cell_of (N:=IEEE32) (to_single rd) t = to_float32 (to_double rd t).
Proof.
  unfold cell_of, to_single, to_double. destruct (rd t) as [d|] eqn:E; cbn [option_map]; [|reflexivity]. cbn [nf32 IEEE32 IEEE].
  apply float32_fixed, to_float32_valid, (R t), E.
Qed.
Lemma single_readable t : readable rd t -> readable (N:=IEEE32) (to_single rd) t.
Proof. intros (d & E). exists (to_float32 d). unfold to_single. rewrite E. reflexivity. Qed.
Lemma single_trees {A} (ts : list (tree A text)) :
  map (convert (cell_of (N:=IEEE32) (to_single rd)) (cell_of (N:=IEEE32) (to_single rd))) (map erase ts) =
  map (convert to_float32 to_float32) (map (convert (to_double rd) (to_double rd)) (map erase ts)).
Proof.
  rewrite map_map, (map_map _ (convert to_float32 to_float32)), (map_map erase). apply map_ext. intros t. induction t as [a v|a f x l IHl r IHr]; cbn [erase convert]; rewrite ?single_cell; [reflexivity|]. f_equal; [exact IHl|exact IHr].
Qed.
Lemma double_thresholds {A} (ts : list (tree A text)) : Forall (fun t => Forall (fun x => valid_binary 53 1024 x = true) (thresholds t)) (map (convert (to_double rd) (to_double rd)) (map erase ts)).
Proof.
  apply Forall_forall. intros t Ht. apply in_map_iff in Ht as (u & <- & _). induction u as [a v|a f x l IHl r IHr]; cbn [convert thresholds]; [constructor|].
  constructor; [apply double_valid|]. apply Forall_app; auto.
Qed.
Lemma readable_all l : Forall (readable rd) l -> Forall (readable (N:=IEEE32) (to_single rd)) l.
Proof. apply Forall_impl, single_readable. Qed.

Theorem lightgbm_doubles ps ls f X : lgbm_file (N:=IEEE32) (to_single rd) (map fst ps) ls -> file_text f ls ->
  Forall (fun p => arr_tree (fst p) (snd p) /\ fits16 (snd p) /\ Forall (readable rd) (a_threshold (fst p)) /\ Forall (readable rd) (a_leaf (fst p))) ps ->
  fit_rows (doubles rd (map snd ps)) X ->
  exists e, lgbm_load (N:=IEEE32) (to_single rd) f = Ok e /\
    basic_scoring e (map (map to_float32) X) = Ok (map (rounded_score (map (fun _ => none) ps) (doubles rd (map snd ps))) X).
Proof.
  intros L F G H. destruct (lightgbm_holds (N:=IEEE32) (to_single rd) ps ls f L F) as (e & E & K).
  { eapply Forall_impl; [|exact G]. intros p (A & B & C & D). auto using readable_all. }
  exists e. split; [exact E|]. apply rounded_model; [|apply double_thresholds|exact H]. unfold doubles. rewrite <- single_trees. exact K.
Qed.
Theorem scikit_doubles ts base lr ls f b l X : sk_lines ts base lr ls -> file_text f ls ->
  Forall (fun t => fits16 t /\ Forall (readable rd) (values t) /\ own_numbers t) ts -> rd base = Some b -> rd lr = Some l ->
  fit_rows (doubles rd ts) X ->
  exists e, sk_load (N:=IEEE32) (to_single rd) f = Ok (e, Some (to_float32 b), Some (to_float32 l)) /\
    basic_scoring e (map (map to_float32) X) = Ok (map (rounded_score (map (fun _ => none) ts) (doubles rd ts)) X).
Proof.
  intros L F G B1 B2 H. destruct (scikit_holds (N:=IEEE32) (to_single rd) ts base lr ls f (to_float32 b) (to_float32 l) L F) as (e & E & K).
  { eapply Forall_impl; [|exact G]. intros t (A & B & C). auto using readable_all. }
  { unfold to_single. rewrite B1. reflexivity. } { unfold to_single. rewrite B2. reflexivity. }
  exists e. split; [exact E|]. apply rounded_model; [|apply double_thresholds|exact H]. unfold doubles. rewrite <- single_trees. exact K.
Qed.
Theorem jforests_doubles (ps : list (text * arrays * tree Z text)) x X : jf_doc (map fst ps) x ->
  Forall (fun p => readable rd (fst (fst p)) /\ arr_tree (snd (fst p)) (snd p) /\ fits16 (snd p) /\
            Forall (readable rd) (a_threshold (snd (fst p))) /\ Forall (readable rd) (a_leaf (snd (fst p)))) ps ->
  fit_rows (doubles rd (map snd ps)) X ->
  exists e, jf_load (N:=IEEE32) (to_single rd) x = Ok e /\
    basic_scoring e (map (map to_float32) X) = Ok (map (rounded_score (map (fun p => to_float32 (to_double rd (fst (fst p)))) ps) (doubles rd (map snd ps))) X).
Proof.
  intros L G H. destruct (jforests_holds (N:=IEEE32) (to_single rd) ps x L) as (e & E & K).
  { eapply Forall_impl; [|exact G]. intros p (A0 & A & B & C & D). auto 10 using readable_all, single_readable. }
  exists e. split; [exact E|]. apply rounded_model; [|apply double_thresholds|exact H]. unfold doubles. rewrite <- single_trees.
  replace (map (fun p => to_float32 _) ps) with (map (cell_of (N:=IEEE32) (to_single rd)) (map fst (map fst ps))); [exact K|]. rewrite !map_map. apply map_ext. intros p. apply single_cell.
Qed.
Theorem quickrank_doubles (wts : list (text * tree unit text)) x X : quick_doc wts x ->
  Forall (fun p => readable rd (fst p) /\ Forall (readable rd) (values (snd p)) /\ fits16 (snd p)) wts ->
  fit_rows (doubles rd (map snd wts)) X ->
  exists e, quick_load (N:=IEEE32) (to_single rd) x = Ok e /\
    basic_scoring e (map (map to_float32) X) = Ok (map (rounded_score (map (fun p => to_float32 (to_double rd (fst p))) wts) (doubles rd (map snd wts))) X).
Proof.
  intros L G H. destruct (quickrank_holds (N:=IEEE32) (to_single rd) wts x L) as (e & E & K).
  { eapply Forall_impl; [|exact G]. intros p (A & B & C). auto using readable_all, single_readable. }
  exists e. split; [exact E|]. apply rounded_model; [|apply double_thresholds|exact H]. unfold doubles. rewrite <- single_trees.
  replace (map (fun p => to_float32 _) wts) with (map (cell_of (N:=IEEE32) (to_single rd)) (map fst wts)); [exact K|]. rewrite !map_map. apply map_ext. intros p. apply single_cell.
Qed.
End Loaders.
Theorem catboost_doubles n (ts : list (tree Z IEEE64)) nodes junk X : cat_file (N:=IEEE32) ts nodes -> ts <> [] -> Forall cat_tree ts -> Forall fits16 ts ->
  Forall (fun t => size t = n) ts -> Z.of_nat n <= 65535 -> (length ts <= length junk)%nat ->
  Forall (fun t => Forall (fun x => valid_binary 53 1024 x = true) (thresholds t)) ts -> fit_rows (map erase ts) X ->
  exists e, cat_load (N:=IEEE32) junk nodes = Ok e /\
    basic_scoring e (map (map to_float32) X) = Ok (map (rounded_score (map (fun _ => none) ts) (map erase ts)) X).
Proof.
  intros A B C D E F G T H. destruct (catboost_holds (N:=IEEE32) n ts nodes junk A B C D E F G) as (e & Q & K).
  exists e. split; [exact Q|]. apply rounded_model; [exact K| |exact H].
  apply Forall_forall. intros u Hu. apply in_map_iff in Hu as (t & <- & Ht). rewrite Forall_forall in T. specialize (T t Ht).
  clear - T. induction t as [a v|a f x l IHl r IHr]; cbn [erase thresholds] in *; [constructor|]. inversion T as [|? ? T1 T2]; subst.
  apply Forall_app in T2 as (T2 & T3). constructor; [exact T1|]. apply Forall_app; auto.
Qed.
