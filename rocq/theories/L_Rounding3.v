(** Proofs for C85: final scores, overflow, order. *)
From Coq Require Import List ZArith Reals Lia Lra Bool Psatz.
From Verif Require Import Base Lists Num M_Dataset S_Dataset M_NDCG M_Float S_Ensemble M_Ensemble S_Rounding M_Schedule L_Float L_Float2 L_Ensemble
  L_Ensemble2 L_Ensemble3 L_Rounding L_Rounding2.
Import ListNotations.
Local Open Scope R_scope.
Notation g k := ((1 + roundoff) ^ k).

(** ** Learning rate and base score *)
Lemma sval_inj j k : sval j = sval k -> j = k.
Proof. intros H. rewrite <- (sround_exact j), H. apply sround_exact. Qed.
Lemma real32_one : real32 (none (n:=F32N)) = 1.
Proof. rewrite real32_val. unfold val. replace (sval (none (n:=F32N))) with (2 ^ 149)%Z by (vm_compute; reflexivity). rewrite IZR_unit. pose proof unit_pos. field. Qed.
Lemma real32_0 : real32 (nzero (n:=F32N)) = 0.
Proof. change (real32 (nzero (n:=F32N))) with (0 / 2 ^ 149). unfold Rdiv. lra. Qed.
Lemma times_rate (lr y : F32N) E err : Rabs (real32 y - E) <= err ->
  Rabs (real32 (if neqb (n:=F32N) lr none then y else nf32 (nmul (n:=F32N) y lr)) - real32 lr * E)
  <= (1 + roundoff) * (Rabs (real32 lr) * err) + roundoff * Rabs (real32 lr * E) + tiny.
Proof.
  intros H. pose proof roundoff_pos as U. pose proof tiny_pos as T. pose proof (Rabs_pos (real32 y - E)) as P0.
  destruct (neqb (n:=F32N) lr none) eqn:Q.
  - assert (lr = none (n:=F32N)) as ->. { apply sval_inj. apply Z.eqb_eq. exact Q. }
    rewrite real32_one, Rabs_R1, !Rmult_1_l. pose proof (Rabs_pos E). nra.
  - change (nf32 (nmul (n:=F32N) y lr)) with (nmul (n:=F32N) y lr).
    destruct (C85_operations_lemma y lr) as (_ & _ & M & _). set (z := real32 (nmul (n:=F32N) y lr)) in *.
    set (a := real32 lr) in *. set (v := real32 y) in *.
    assert (D : Rabs (z - a * E) <= Rabs (z - v * a) + Rabs (v * a - a * E)).
    { replace (z - a * E) with ((z - v * a) + (v * a - a * E)) by lra. apply Rabs_triang. }
    assert (D2 : Rabs (v * a - a * E) = Rabs a * Rabs (v - E)). { rewrite <- Rabs_mult. f_equal. lra. }
    assert (D3 : Rabs (v * a) <= Rabs (v * a - a * E) + Rabs (a * E)).
    { replace (v * a) with ((v * a - a * E) + a * E) at 1 by lra. apply Rabs_triang. }
    assert (D4 : Rabs a * Rabs (v - E) <= Rabs a * err) by (apply Rmult_le_compat_l; [apply Rabs_pos|exact H]).
    rewrite D2 in *. nra.
Qed.
Lemma plus_base (b : option F32N) (y : F32N) E err : Rabs (real32 y - E) <= err ->
  Rabs (real32 (match truthy (N:=F32N) b with None => y | Some v => nf32 (nadd (n:=F32N) y v) end) - (E + base32 b))
  <= (1 + roundoff) * err + roundoff * Rabs (E + base32 b).
Proof.
  intros H. pose proof roundoff_pos as U. pose proof (Rabs_pos (real32 y - E)) as P0. pose proof (Rabs_pos (E + base32 b)) as P1.
  unfold truthy. destruct b as [b|]; cbn [base32] in *; [|rewrite Rplus_0_r in *; nra].
  destruct (neqb (n:=F32N) b nzero) eqn:Q.
  - assert (b = nzero (n:=F32N)) as ->. { apply sval_inj. apply Z.eqb_eq. exact Q. }
    rewrite real32_0, Rplus_0_r in *. nra.
  - change (nf32 (nadd (n:=F32N) y b)) with (nadd (n:=F32N) y b).
    destruct (C85_operations_lemma y b) as (M & _). set (z := real32 (nadd (n:=F32N) y b)) in *. set (v := real32 y) in *. set (c := real32 b) in *.
    assert (D : Rabs (z - (E + c)) <= Rabs (z - (v + c)) + Rabs (v - E)).
    { replace (z - (E + c)) with ((z - (v + c)) + (v - E)) by lra. apply Rabs_triang. }
    assert (D3 : Rabs (v + c) <= Rabs (v - E) + Rabs (E + c)).
    { replace (v + c) with ((v - E) + (E + c)) by lra. apply Rabs_triang. }
    nra.
Qed.

Lemma adjusted_close (m : model F32N) ws ts X (f : list F32N -> F32N) :
  (forall row, Rabs (real32 (f row) - exact_score ws ts row) <= score_error ws ts row) ->
  Forall2 (fun row y => Rabs (real32 y - exact_final (m_lr m) (m_base m) ws ts row) <= final_error (m_lr m) (m_base m) ws ts row) X
    (map (fun v => match truthy (m_base m) with
                   | Some b => nf32 (nadd (if neqb (m_lr m) none then v else nf32 (nmul v (m_lr m))) b)
                   | None => if neqb (m_lr m) none then v else nf32 (nmul v (m_lr m)) end) (map f X)).
Proof.
  intros H. induction X as [|row X IH]; constructor; [|exact IH].
  pose proof (plus_base (m_base m) _ _ _ (times_rate (m_lr m) _ _ _ (H row))) as F.
  unfold final_error, exact_final. cbv zeta. destruct (truthy (m_base m)); exact F.
Qed.
Theorem C85_final_lemma (rowsum : list F32N -> F32N) digest (m : model F32N) (o : obj (N:=F32N)) det cache ts ws :
  (forall l, summed l (rowsum l)) ->
  laid_out (m_ens m) ts ws -> ts <> [] -> nonneg_features ts -> rows_fit (snd o) -> ~ too_wide (ds_nf (snd o)) ts -> m_cache m = [] ->
  exists ys p l, snd (score rowsum digest m o det cache) = Ok (if det then Detailed (Some ys) p l else Basic (Some ys)) /\
    Forall2 (fun row y => Rabs (real32 y - exact_final (m_lr m) (m_base m) ws ts row) <= final_error (m_lr m) (m_base m) ws ts row)
            (ds_X (snd o)) ys.
Proof.
  intros HS HL Hne Hpos Hrow Hw H0. unfold score. rewrite H0. cbn [scorer_find].
  destruct (C37_check_lemma _ _ _ (snd o) HL Hne) as [[_ Hw']|[-> _]]; [destruct (Hw Hw')|]. cbn [bind].
  assert (Hc : forall row, In row (ds_X (snd o)) -> covers (N:=F32N) row ts).
  { intros row Hr. unfold rows_fit in Hrow. rewrite Forall_forall in Hrow. eapply (covers_of_check (m_ens m) ts ws); eauto. }
  pose proof HL as [He _]. pose proof He as (_ & _ & _ & Elen & _).
  unfold scorer_score. cbn [negb andb orb is_some sc_y sc_leaves new_scorer]. destruct det; cbn [negb andb orb].
  - rewrite (C32_lemma _ _ _ _ He Hc). cbn [bind fst snd]. rewrite adjust_parts. cbn [option_map]. rewrite (map_map (tree_scores ws ts) rowsum).
    do 3 eexists. split; [destruct cache; cbn [scorer_store bind snd answer_of sc_y sc_partial sc_leaves]; reflexivity|].
    apply adjusted_close. intros row. apply sum_within; [exact Elen|apply HS].
  - rewrite (C31_lemma _ _ _ _ He Hc). cbn [bind fst snd]. rewrite adjust_parts. cbn [option_map].
    eexists. exists None, None. split; [destruct cache; cbn [scorer_store bind snd answer_of sc_y]; reflexivity|].
    apply adjusted_close. intros row. apply score_within, Elen.
Qed.
Theorem C85_history_lemma (rowsum : list F32N -> F32N) digest (m0 : model F32N) ts ws h (o : obj (N:=F32N)) det cache :
  (forall l, summed l (rowsum l)) ->
  laid_out (m_ens m0) ts ws -> ts <> [] -> nonneg_features ts -> m_cache m0 = [] ->
  (forall k, In k (o :: scored h) -> rect (snd k)) -> distinguishable digest (o :: scored h) -> ~ too_wide (ds_nf (snd o)) ts ->
  exists ys p l,
    snd (score rowsum digest (score_after rowsum digest m0 h) o det cache) = Ok (if det then Detailed (Some ys) p l else Basic (Some ys)) /\
    Forall2 (fun row y => Rabs (real32 y - exact_final (m_lr m0) (m_base m0) ws ts row) <= final_error (m_lr m0) (m_base m0) ws ts row)
            (ds_X (snd o)) ys.
Proof.
  intros HS HL Hne Hpos H0 Hr Hd Hw. pose proof (Hr o (or_introl eq_refl)) as [Hrow _].
  destruct (C34_any_lemma (N:=F32N) rowsum digest m0 ts ws h o det cache) as [E|(-> & y & p & l & E1 & E2)]; auto.
  { intros a b. split; [intros Q; apply sval_inj, Z.eqb_eq, Q|intros ->; apply Z.eqb_refl]. }
  - rewrite E. apply C85_final_lemma; auto.
  - rewrite E2. destruct (C85_final_lemma rowsum digest m0 o true false ts ws HS HL Hne Hpos Hrow Hw H0) as (ys & p2 & l2 & E3 & F).
    exists ys, None, None. split; [|exact F]. rewrite E1 in E3. injection E3 as <- _ _. reflexivity.
Qed.

(** ** Overflow *)
Lemma in_range_bound k : in_range k <-> Rabs (real32 k) < 2 ^ 128.
Proof.
  assert (T : sval (255 * 2 ^ 23) = (2 ^ 277)%Z) by (vm_compute; reflexivity).
  assert (A : Rabs (real32 k) = IZR (Z.abs (sval k)) / 2 ^ 149). { rewrite real32_val, scaled. unfold val. rewrite abs_IZR. reflexivity. }
  assert (B : Z.abs (sval k) = sval (Z.abs k)).
  { destruct (Z.le_gt_cases 0 k) as [L|L].
    - rewrite (Z.abs_eq k L). apply Z.abs_eq. pose proof (sval_le 0 k) as S. change (sval 0) with 0%Z in S. lia.
    - rewrite (Z.abs_neq k) by lia. rewrite sval_opp. apply Z.abs_neq. pose proof (sval_le k 0) as S. change (sval 0) with 0%Z in S. lia. }
  assert (C : 2 ^ 128 = IZR (2 ^ 277) / 2 ^ 149).
  { pose proof unit_pos. change 277%Z with (Z.of_nat 277). rewrite <- pow_IZR. change 277%nat with (128 + 149)%nat. rewrite pow_add. field. }
  rewrite A, B, C. unfold in_range. rewrite <- (sval_lt (Z.abs k)), T. pose proof unit_pos as P.
  split; intros H.
  - apply Rmult_lt_compat_r; [apply Rinv_0_lt_compat; exact P|]. apply IZR_lt. exact H.
  - apply lt_IZR. apply (Rmult_lt_reg_r (/ 2 ^ 149)); [apply Rinv_0_lt_compat; exact P|exact H].
Qed.
Lemma max32_largest : in_range (255 * 2 ^ 23 - 1) /\ real32 (255 * 2 ^ 23 - 1) = max32.
Proof.
  split; [unfold in_range; lia|]. rewrite real32_val. unfold val, max32.
  replace (sval (255 * 2 ^ 23 - 1)) with ((2 ^ 24 - 1) * 2 ^ 253)%Z by (vm_compute; reflexivity).
  rewrite mult_IZR, minus_IZR, IZR_24. change 253%Z with (Z.of_nat 253). rewrite <- pow_IZR. change 253%nat with (104 + 149)%nat. rewrite pow_add.
  pose proof unit_pos. field.
Qed.
Lemma mass_nonneg ws ts row : 0 <= mass ws ts row.
Proof. unfold mass, Rtotal. induction (exact_parts ws ts row) as [|x l IH]; cbn [map fold_right]; [lra|]. pose proof (Rabs_pos x). lra. Qed.
Lemma exact_le_mass ws ts row : Rabs (exact_score ws ts row) <= mass ws ts row.
Proof.
  unfold exact_score, mass, Rtotal. induction (exact_parts ws ts row) as [|x l IH]; cbn [map fold_right]; [rewrite Rabs_R0; lra|].
  eapply Rle_trans; [apply Rabs_triang|]. lra.
Qed.
Lemma sum_nonneg l : 0 <= fold_right Rplus 0 (map Rabs l).
Proof. induction l as [|y l IH]; cbn [map fold_right]; [lra|]. pose proof (Rabs_pos y). lra. Qed.
Lemma sum_firstn (l : list R) k : fold_right Rplus 0 (map Rabs (firstn k l)) <= fold_right Rplus 0 (map Rabs l).
Proof.
  revert k. induction l as [|x l IH]; intros [|k]; cbn [firstn map fold_right].
  - lra.
  - lra.
  - pose proof (Rabs_pos x). pose proof (sum_nonneg l). lra.
  - specialize (IH k). lra.
Qed.
Lemma mass_firstn ws ts row k : mass (firstn k ws) (firstn k ts) row <= mass ws ts row.
Proof.
  unfold mass. replace (exact_parts (firstn k ws) (firstn k ts) row) with (firstn k (exact_parts ws ts row)); [apply sum_firstn|].
  unfold exact_parts. rewrite firstn_map, combine_firstn. reflexivity.
Qed.
Lemma in_mass ws ts row p : In p (exact_parts ws ts row) -> Rabs p <= mass ws ts row.
Proof.
  unfold mass, Rtotal. induction (exact_parts ws ts row) as [|x l IH]; intros I; [destruct I|]. cbn [map fold_right].
  pose proof (sum_nonneg l).
  destruct I as [->|I]; [lra|]. specialize (IH I). pose proof (Rabs_pos x). lra.
Qed.
Lemma in_close l ps : Forall2 close_to l ps -> forall s, In s l -> exists p, In p ps /\ close_to s p.
Proof.
  induction 1 as [|s p l ps C F IH]; intros s' I; [destruct I|]. destruct I as [<-|I]; [exists p; split; [left; reflexivity|exact C]|].
  destruct (IH _ I) as (q & Q1 & Q2). exists q. split; [right; exact Q1|exact Q2].
Qed.
Theorem C85_overflow_lemma ws ts row : length ws = length ts ->
  let n := length ts in g n * mass ws ts row + INR n * g n * tiny < 2 ^ 128 ->
  Forall in_range (tree_scores (N:=F32N) ws ts row) /\
  forall k, in_range (ensemble_score (N:=F32N) (firstn k ws) (firstn k ts) row).
Proof.
  intros L n H. pose proof roundoff_pos as U. pose proof tiny_pos as T. pose proof (mass_nonneg ws ts row) as M0. split.
  - apply Forall_forall. intros s' Hs. assert (n1 : (1 <= n)%nat). { unfold n. destruct ts; [destruct ws; [destruct Hs|discriminate L]|cbn; lia]. }
    destruct (in_close _ _ (parts_close ws ts row) s' Hs) as (p & Ip & F). unfold close_to in F.
    apply in_mass in Ip. apply in_range_bound.
    assert (G : 1 + roundoff <= g n) by (rewrite <- (pow_1 (1 + roundoff)) at 1; apply g_le; exact n1).
    assert (K : 1 <= INR n) by (change 1 with (INR 1); apply le_INR; exact n1).
    assert (D : Rabs (real32 s') <= Rabs (real32 s' - p) + Rabs p). { replace (real32 s') with ((real32 s' - p) + p) at 1 by lra. apply Rabs_triang. }
    assert (G1 : (1 + roundoff) * Rabs p <= g n * mass ws ts row). { apply Rmult_le_compat; try lra. apply Rabs_pos. }
    assert (G2 : tiny <= INR n * g n * tiny). { rewrite <- (Rmult_1_l tiny) at 1. apply Rmult_le_compat_r; [lra|]. nra. }
    lra.
  - intros k. apply in_range_bound.
    assert (Lk : length (firstn k ws) = length (firstn k ts)) by (rewrite !firstn_length; lia).
    pose proof (score_within (firstn k ws) (firstn k ts) row Lk) as E. pose proof (exact_le_mass (firstn k ws) (firstn k ts) row) as E2.
    pose proof (mass_firstn ws ts row k) as E3. pose proof (mass_nonneg (firstn k ws) (firstn k ts) row) as E4.
    unfold score_error in E. cbv zeta in E. set (j := length (firstn k ts)) in *.
    assert (J : (j <= n)%nat) by (unfold j, n; rewrite firstn_length; lia).
    set (y := real32 (ensemble_score (firstn k ws) (firstn k ts) row)) in *. set (x := exact_score (firstn k ws) (firstn k ts) row) in *.
    assert (D : Rabs y <= Rabs (y - x) + Rabs x). { replace y with ((y - x) + x) at 1 by lra. apply Rabs_triang. }
    pose proof (g_le j n J) as GJ. pose proof (g_ge1 j) as G1. pose proof (le_INR _ _ J) as NJ. pose proof (pos_INR j) as J0.
    assert (B1 : g j * mass (firstn k ws) (firstn k ts) row <= g n * mass ws ts row) by (apply Rmult_le_compat; lra).
    assert (B2 : INR j * g j * tiny <= INR n * g n * tiny). { apply Rmult_le_compat_r; [lra|]. apply Rmult_le_compat; lra. }
    lra.
Qed.

(** ** Order *)
Lemma real32_lt j k : real32 j < real32 k <-> nltb (n:=F32N) j k = true.
Proof.
  rewrite !real32_val. unfold val. pose proof unit_pos as P. change (nltb (n:=F32N) j k) with (sval j <? sval k)%Z. rewrite Z.ltb_lt. split; intros H.
  - apply lt_IZR. apply (Rmult_lt_reg_r (/ 2 ^ 149)); [apply Rinv_0_lt_compat; exact P|exact H].
  - apply Rmult_lt_compat_r; [apply Rinv_0_lt_compat; exact P|]. apply IZR_lt, H.
Qed.
Theorem C85_order_lemma (e : ensemble F32N) ts ws X : encodes e ts ws -> (forall row, In row X -> covers row ts) ->
  exists ys, basic_scoring e X = Ok ys /\ length ys = length X /\
    forall i j r r' y y', nth_error X i = Some r -> nth_error X j = Some r' -> nth_error ys i = Some y -> nth_error ys j = Some y' ->
      score_error ws ts r + score_error ws ts r' < exact_score ws ts r' - exact_score ws ts r -> nltb (n:=F32N) y y' = true.
Proof.
  intros EN C. exists (map (ensemble_score ws ts) X). split; [exact (L_Ensemble.C31_lemma e ts ws X EN C)|]. split; [apply map_length|].
  destruct EN as (_ & _ & _ & L & _). intros i j r r' y y' Hi Hj Yi Yj H. apply real32_lt.
  rewrite nth_error_map, Hi in Yi. rewrite nth_error_map, Hj in Yj. injection Yi as <-. injection Yj as <-.
  pose proof (score_within ws ts r L) as A. pose proof (score_within ws ts r' L) as B.
  rewrite Rabs_minus_sym in B. pose proof (Rle_trans _ _ _ (Rle_abs _) A). pose proof (Rle_trans _ _ _ (Rle_abs _) B). lra.
Qed.
