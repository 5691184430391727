(** Proofs: how far the scores of a loaded model are from those of its doubles. *)
From Coq Require Import List ZArith Lia Bool Reals Lra SpecFloat.
From Verif Require Import Base Lists Num M_Ensemble S_Ensemble M_Float S_Loaders M_IEEE S_IEEE S_Rounding S_IEEE2 S_Twins S_Doubles S_Doubles2
  L_QuickRank L_Loaders L_Float L_Float2 L_Rounding L_Rounding2 L_IEEE L_IEEE2 L_IEEE3 L_IEEE4 L_IEEE5 L_Doubles.
Import ListNotations.
Local Open Scope R_scope.

Definition sign (s : bool) : R := if s then -1 else 1.
Lemma real_of_decode p emax s j : (1 <= p)%Z -> (p + 1 < emax)%Z -> (0 <= j < top p emax)%Z ->
  real_of (decode p emax s j) = sign s * IZR (fval p j) * powerRZ 2 (SpecFloat.emin (p + 1) emax).
Proof.
  intros P E J. destruct (decode_cases p emax P E s j J) as [(-> & ->)|(m & e & _ & -> & (S0 & _) & V & _)]; cbn [real_of].
  - rewrite fval_0 by lia. cbn [IZR]. lra.
  - rewrite V, mult_IZR. fold (sign s). replace e with ((e - SpecFloat.emin (p + 1) emax) + SpecFloat.emin (p + 1) emax)%Z at 1 by lia.
    rewrite powerRZ_add by lra. replace (IZR (2 ^ (e - SpecFloat.emin (p + 1) emax))) with (powerRZ 2 (e - SpecFloat.emin (p + 1) emax)); [ring|].
    rewrite <- (Z2Nat.id (e - SpecFloat.emin (p + 1) emax)) by exact S0. rewrite <- pow_powerRZ, pow_IZR. reflexivity.
Qed.
Lemma sign_abs s : Rabs (sign s) = 1.
Proof. destruct s; cbn [sign]; [rewrite Rabs_left by lra|rewrite Rabs_right by lra]; lra. Qed.

Theorem to_float32_error d : finite_value 53 1024 d -> finite_value 24 128 (to_float32 d) ->
  Rabs (real_of (to_float32 d) - real_of d) <= roundoff * Rabs (real_of d) + tiny.
Proof.
  intros F G. apply (finite_value_decode 52 1024 d ltac:(lia) ltac:(lia)) in F as (s & j & J & ->).
  assert (J' : (0 <= j < top 52 1024)%Z) by exact J. rewrite rounded_decode in * by lia. unfold rounded_rank in *.
  destruct (Z.ltb_spec j (top 52 1024)) as [_|L]; [|lia].
  set (a := fval 52 j) in *. assert (A : (0 <= a)%Z) by (apply fval_nonneg; lia). set (k := fround 23 a (2 ^ 925)) in *.
  assert (K0 : (0 <= k)%Z) by (apply fround_nn; [exact A|reflexivity]).
  assert (K : (0 <= k < top 23 128)%Z).
  { split; [exact K0|]. destruct (Z.lt_ge_cases k (top 23 128)) as [|Q]; [assumption|]. rewrite decode_top in G by (lia || exact Q). destruct G as (_ & []). }
  rewrite (real_of_decode 23 128) by (lia || exact K). rewrite (real_of_decode 52 1024) by (lia || exact J'). fold a.
  change (SpecFloat.emin (23 + 1) 128) with (-149)%Z. change (SpecFloat.emin (52 + 1) 1024) with (-1074)%Z.
  assert (P : powerRZ 2 (-149) = IZR (2 ^ 925) * powerRZ 2 (-1074)).
  { replace (-149)%Z with (Z.of_nat 925 + -1074)%Z by reflexivity. rewrite powerRZ_add by lra. rewrite <- pow_powerRZ. rewrite (pow_IZR 2 925). reflexivity. }
  rewrite P. set (w := powerRZ 2 (-1074)) in *. assert (W : 0 < w) by (apply powerRZ_lt; lra).
  replace (sign s * IZR (fval 23 k) * (IZR (2 ^ 925) * w) - sign s * IZR a * w) with (sign s * (IZR (fval 23 k * 2 ^ 925 - a) * w)) by (rewrite minus_IZR, mult_IZR; ring).
  rewrite !Rabs_mult, sign_abs, !(Rabs_right w) by lra. rewrite <- !abs_IZR. rewrite (Z.abs_eq a) by exact A.
  assert (T : tiny = IZR (2 ^ 924) * w).
  { unfold tiny. replace (/ 2 ^ 150) with (powerRZ 2 (-150)) by (cbn [powerRZ]; replace (Pos.to_nat 150) with 150%nat by reflexivity; reflexivity). unfold w.
    replace (-150)%Z with (Z.of_nat 924 + -1074)%Z by reflexivity. rewrite powerRZ_add by lra. rewrite <- pow_powerRZ. rewrite (pow_IZR 2 924). reflexivity. }
  assert (AR : 0 <= IZR a) by (apply IZR_le; exact A). assert (H2 : 0 < tiny) by (rewrite T; apply Rmult_lt_0_compat; [apply IZR_lt; reflexivity|exact W]).
  assert (U : roundoff = / IZR (2 ^ 24)) by (unfold roundoff; f_equal; rewrite pow_IZR; reflexivity).
  assert (UP : 0 < IZR (2 ^ 24)) by (apply IZR_lt; reflexivity).
  destruct (fround_err a (2 ^ 925) A ltac:(reflexivity)) as [E|E]; fold k in E; apply IZR_le in E; rewrite mult_IZR in E.
  - assert (IZR (Z.abs (fval 23 k * 2 ^ 925 - a)) <= roundoff * IZR a).
    { rewrite U. apply Rmult_le_reg_l with (IZR (2 ^ 24)); [exact UP|]. rewrite <- Rmult_assoc, Rinv_r by lra. lra. }
    assert (IZR (Z.abs (fval 23 k * 2 ^ 925 - a)) * w <= roundoff * IZR a * w) by (apply Rmult_le_compat_r; lra). lra.
  - assert (IZR (Z.abs (fval 23 k * 2 ^ 925 - a)) <= IZR (2 ^ 924)).
    { replace (IZR (2 ^ 925)) with (2 * IZR (2 ^ 924)) in E by (rewrite <- mult_IZR; reflexivity). lra. }
    assert (IZR (Z.abs (fval 23 k * 2 ^ 925 - a)) * w <= IZR (2 ^ 924) * w) by (apply Rmult_le_compat_r; lra).
    assert (0 <= roundoff * (1 * IZR a * w)). { rewrite U. apply Rmult_le_pos; [left; apply Rinv_0_lt_compat, UP|]. apply Rmult_le_pos; lra. }
    lra.
Qed.

(** ** Scores *)
Lemma thresholds_values {A} (t : tree A IEEE64) : Forall both_finite (values t) -> Forall (fun x => valid_binary 53 1024 x = true) (thresholds t).
Proof.
  induction t as [i v|i f x l IHl r IHr]; cbn [values thresholds]; intros H; [constructor|]. apply Forall_cons_iff in H as ((H & _) & H0).
  apply Forall_app in H0 as (H1 & H2). constructor; [exact (proj1 H)|]. apply Forall_app. auto.
Qed.
Lemma exit_value {A} row (t : tree A IEEE64) : In (snd (exit_leaf row t)) (values t).
Proof.
  induction t as [i v|i f x l IHl r IHr]; cbn [values exit_leaf]; [left; reflexivity|]. right. apply in_or_app.
  destruct (nleb _ _); [left; exact IHl|right; exact IHr].
Qed.
Definition rounded_parts {A} (ws : list IEEE32) (ts : list (tree A IEEE64)) (row : list IEEE64) : list R :=
  map (fun p => real_of (fst p) * real_of (to_float32 (snd (exit_leaf row (snd p))))) (combine ws ts).
Lemma parts_rounded (row : list IEEE64) ts : Forall (fun t : tree unit IEEE64 => Forall both_finite (values t)) ts ->
  Forall (fun x => valid_binary 53 1024 x = true) row -> Forall (undisturbed_path row) ts ->
  forall (us : list (tree Z IEEE32)) ws, map erase us = map (convert to_float32 to_float32) ts ->
  ieee_parts ws us (map to_float32 row) = rounded_parts ws ts row.
Proof.
  intros V R. induction V as [|t ts V1 V IH]; intros Q us ws E; destruct us as [|u us]; try discriminate; [destruct ws; reflexivity|].
  inversion Q as [|? ? Q2 Q3]; subst. cbn [map] in E. injection E as E1 E2.
  destruct ws as [|w ws]; [reflexivity|]. unfold ieee_parts, rounded_parts. cbn [combine map fst snd]. f_equal; [|apply IH; assumption].
  f_equal. f_equal. rewrite (exit_erase (N:=IEEE32) (map to_float32 row) u).
  assert (EX : exit_leaf (N:=IEEE32) (map to_float32 row) (erase u) = exit_leaf (N:=IEEE32) (map to_float32 row) (convert to_float32 to_float32 t)) by (f_equal; exact E1).
  rewrite EX, rounded_exit by (assumption || apply thresholds_values, V1). reflexivity.
Qed.
Lemma sums_near {P} (f g h : P -> R) l : Forall (fun p => Rabs (f p - g p) <= roundoff * Rabs (g p) + h p * tiny) l ->
  let D := roundoff * Rtotal (map Rabs (map g l)) + Rtotal (map h l) * tiny in
  Rabs (Rtotal (map f l) - Rtotal (map g l)) <= D /\ Rtotal (map Rabs (map f l)) <= Rtotal (map Rabs (map g l)) + D.
Proof.
  cbv zeta. induction 1 as [|p l E H (I1 & I2)]; unfold Rtotal in *; cbn [map fold_right]; [rewrite Rminus_0_r, Rabs_R0; lra|].
  set (S1 := fold_right Rplus 0 (map f l)) in *. set (S2 := fold_right Rplus 0 (map g l)) in *. split.
  - replace (f p + S1 - (g p + S2)) with ((f p - g p) + (S1 - S2)) by ring. eapply Rle_trans; [apply Rabs_triang|]. lra.
  - pose proof (Rabs_triang (g p) (f p - g p)) as T. replace (g p + (f p - g p)) with (f p) in T by ring. lra.
Qed.
Lemma first_combine {P Q S} (h : P -> S) (ws : list P) (ts : list Q) : length ws = length ts -> map (fun p => h (fst p)) (combine ws ts) = map h ws.
Proof. revert ts; induction ws as [|w ws IH]; intros [|t ts] L; try discriminate; [reflexivity|]. cbn [combine map fst]. f_equal. apply IH. injection L; auto. Qed.
Lemma parts_near {A} (ts : list (tree A IEEE64)) row : Forall (fun t => Forall both_finite (values t)) ts -> forall ws, length ws = length ts ->
  let D := roundoff * double_mass ws ts row + total_weight ws * tiny in
  Rabs (Rtotal (rounded_parts ws ts row) - double_exact ws ts row) <= D /\
  Rtotal (map Rabs (rounded_parts ws ts row)) <= double_mass ws ts row + D.
Proof.
  intros V ws L. cbv zeta. unfold total_weight. rewrite <- (first_combine (fun w => Rabs (real_of w)) ws ts L).
  unfold double_exact, double_mass, double_parts, rounded_parts. apply sums_near. apply Forall_forall. intros (w & t) I. cbn [fst snd].
  apply in_combine_r in I. pose proof (proj1 (Forall_forall _ _) V t I) as V1.
  pose proof (proj1 (Forall_forall _ _) V1 _ (exit_value row t)) as (F1 & F2). pose proof (to_float32_error _ F1 F2) as E.
  rewrite <- Rmult_minus_distr_l, !Rabs_mult. pose proof (Rabs_pos (real_of w)) as P.
  eapply Rle_trans; [apply Rmult_le_compat_l; [exact P|exact E]|right; ring].
Qed.
(** The same tree with numbers at its nodes. *)
Fixpoint marked {V} (t : tree unit V) : tree Z V :=
  match t with Leaf _ v => Leaf 0%Z v | Node _ f x l r => Node 0%Z f x (marked l) (marked r) end.
Lemma erase_marked {V} (t : tree unit V) : erase (marked t) = t.
Proof. induction t as [[] v|[] f x l IHl r IHr]; cbn [marked erase]; congruence. Qed.
Lemma score_rounded (row : list IEEE64) (ts : list (tree unit IEEE64)) : Forall (fun t => Forall both_finite (values t)) ts -> Forall (fun x => valid_binary 53 1024 x = true) row ->
  Forall (undisturbed_path row) ts -> forall (us : list (tree Z IEEE32)) ws, map erase us = map (convert to_float32 to_float32) ts ->
  ensemble_score ws us (map to_float32 row) = rounded_score ws ts row.
Proof.
  intros V R Q us ws E. unfold ensemble_score, tree_scores, rounded_score. generalize (nzero (n:=IEEE32)) as y. revert Q us ws E.
  induction V as [|t ts V1 V IH]; intros Q us ws E y; destruct us as [|u us]; try discriminate; [destruct ws; reflexivity|].
  inversion Q as [|? ? Q2 Q3]; subst. cbn [map] in E. injection E as E1 E2.
  destruct ws as [|w ws]; [reflexivity|]. cbn [combine map fst snd fold_left].
  replace (snd (exit_leaf (N:=IEEE32) (map to_float32 row) u)) with (to_float32 (snd (exit_leaf (N:=IEEE64) row t))); [apply IH; assumption|].
  rewrite (exit_erase (N:=IEEE32) (map to_float32 row) u).
  assert (EX : exit_leaf (N:=IEEE32) (map to_float32 row) (erase u) = exit_leaf (N:=IEEE32) (map to_float32 row) (convert to_float32 to_float32 t)) by (f_equal; exact E1).
  rewrite EX, rounded_exit by (assumption || apply thresholds_values, V1). reflexivity.
Qed.
Theorem rounded_score_error (ts : list (tree unit IEEE64)) (ws : list IEEE32) (row : list IEEE64) :
  length ws = length ts -> Forall (finite_value 24 128) ws ->
  Forall (fun t => Forall both_finite (values t) /\ undisturbed_path row t) ts -> Forall both_finite row ->
  (let n := length ts in (1 + roundoff) ^ (n + 1) * double_mass ws ts row + (1 + roundoff) ^ n * (total_weight ws + INR n) * tiny < 2 ^ 128) ->
  finite_value 24 128 (rounded_score ws ts row) /\ Rabs (real_of (rounded_score ws ts row) - double_exact ws ts row) <= double_error ws ts row.
Proof.
  cbv zeta. intros Lw HW HQ HR HX.
  assert (HT : Forall (fun t => Forall both_finite (values t)) ts) by (eapply Forall_impl; [|exact HQ]; intros t (A & _); exact A).
  assert (Q : Forall (undisturbed_path row) ts) by (eapply Forall_impl; [|exact HQ]; intros t (_ & A); exact A).
  assert (V : Forall (fun x => valid_binary 53 1024 x = true) row) by (eapply Forall_impl; [|exact HR]; intros x ((A & _) & _); exact A).
  set (us := map (fun t => marked (convert to_float32 to_float32 t)) ts : list (tree Z IEEE32)).
  assert (E : map erase us = map (convert to_float32 to_float32) ts) by (unfold us; rewrite map_map; apply map_ext; intros t; apply erase_marked).
  assert (Lu : length us = length ts) by (unfold us; apply map_length).
  destruct (parts_near ts row HT ws Lw) as (N1 & N2). cbv zeta in N1, N2.
  assert (PR : ieee_parts ws us (map to_float32 row) = rounded_parts ws ts row) by (apply parts_rounded; assumption).
  assert (C : 1 <= (1 + roundoff) ^ length ts) by (apply pow_R1_Rle; pose proof roundoff_pos; lra).
  destruct (score_near ws us (map to_float32 row)) as (Y1 & Y2).
  - congruence.
  - exact HW.
  - clearbody us. clear - E HT. revert us E. induction HT as [|t ts T HT IH]; intros us E; destruct us as [|u us]; try discriminate; [constructor|].
    cbn [map] in E. injection E as E1 E2. constructor; [|apply IH, E2].
    assert (EV : values u = map to_float32 (values t)) by (transitivity (values (erase u)); [symmetry; apply values_erase|]; transitivity (values (convert to_float32 to_float32 t)); [f_equal; exact E1|apply values_convert]).
    refine (eq_ind_r (fun l => Forall (finite_value 24 128) l) _ EV). apply Forall_map. eapply Forall_impl; [|exact T]. intros v (_ & Hv). exact Hv.
  - apply Forall_map. eapply Forall_impl; [|exact HR]. intros v (_ & Hv). exact Hv.
  - eapply Rle_lt_trans; [|exact HX]. rewrite Lu. unfold ieee_mass. rewrite PR. rewrite pow_add, pow_1. set (c := (1 + roundoff) ^ length ts) in *.
    assert (C0 : 0 <= c) by lra. pose proof (Rmult_le_compat_l c _ _ C0 N2). lra.
  - rewrite (score_rounded row ts HT V Q us ws E) in Y1, Y2. split; [exact Y1|]. unfold ieee_error, ieee_mass, ieee_exact in Y2. cbv zeta in Y2. rewrite Lu, PR in Y2. unfold double_error. cbv zeta.
    rewrite pow_add, pow_1. set (c := (1 + roundoff) ^ length ts) in *.
    replace (real_of (rounded_score ws ts row) - double_exact ws ts row) with ((real_of (rounded_score ws ts row) - Rtotal (rounded_parts ws ts row)) + (Rtotal (rounded_parts ws ts row) - double_exact ws ts row)) by ring.
    eapply Rle_trans; [apply Rabs_triang|]. assert (C1 : 0 <= c - 1) by lra. pose proof (Rmult_le_compat_l _ _ _ C1 N2). lra.
Qed.
