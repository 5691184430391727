(** Rounding errors of the metrics of one query: gains, discounts, utilities, squares. *)
From Coq Require Import List ZArith Reals Lia Lra Psatz Permutation Bool.
From Verif Require Import Base Lists Num M_Dataset M_Metrics S_Metrics L_Metrics L_MetricsR L_MetricsR2 S_Ensemble M_MetricSums S_MetricError L_MetricError L_MetricError2.
Import ListNotations.
Local Open Scope R_scope.

Lemma ln2_pos : 0 < ln 2.
Proof. rewrite <- ln_1. apply ln_increasing; lra. Qed.
Lemma Rexp2_0 : Rexp2 0 = 1.
Proof. unfold Rexp2. rewrite Rmult_0_l. apply exp_0. Qed.
Lemma Rexp2_1 : Rexp2 1 = 2.
Proof. unfold Rexp2. rewrite Rmult_1_l. apply exp_ln. lra. Qed.
Lemma Rexp2_pos v : 0 < Rexp2 v.
Proof. apply exp_pos. Qed.
Lemma Rexp2_le a b : a <= b -> Rexp2 a <= Rexp2 b.
Proof.
  intros H. unfold Rexp2. pose proof ln2_pos. destruct (Rle_lt_or_eq_dec _ _ H) as [L|E]; [|rewrite E; lra].
  left. apply exp_increasing. apply Rmult_lt_compat_r; lra.
Qed.
Lemma Rexp2_grade v : 1 <= v -> 2 <= Rexp2 v.
Proof. intros H. rewrite <- Rexp2_1. apply Rexp2_le. exact H. Qed.
Lemma log2_ge1 x : 2 <= x -> 1 <= Rlog2 x.
Proof.
  intros H. unfold Rlog2. pose proof ln2_pos. apply (Rmult_le_reg_r (ln 2)); [lra|].
  unfold Rdiv. rewrite Rmult_assoc, Rinv_l by lra. rewrite Rmult_1_r, Rmult_1_l.
  destruct (Rle_lt_or_eq_dec _ _ H) as [L|E]; [left; apply ln_increasing; lra|rewrite E; lra].
Qed.
Lemma log2_le i : Rlog2 (INR (i + 2)) <= INR (i + 1).
Proof.
  assert (P : INR (i + 2) <= 2 ^ (i + 1)).
  { induction i as [|i IH]; [cbn; lra|]. replace (S i + 1)%nat with (S (i + 1)) by lia. replace (S i + 2)%nat with (S (i + 2)) by lia.
    rewrite S_INR. cbn [pow]. assert (1 <= 2 ^ (i + 1)) by (apply pow_R1_Rle; lra). lra. }
  assert (Q : 0 < INR (i + 2)) by (apply lt_0_INR; lia). pose proof ln2_pos.
  unfold Rlog2. apply (Rmult_le_reg_r (ln 2)); [lra|]. unfold Rdiv. rewrite Rmult_assoc, Rinv_l by lra. rewrite Rmult_1_r.
  assert (E : INR (i + 1) * ln 2 = ln (2 ^ (i + 1))) by (rewrite ln_pow by lra; reflexivity). rewrite E.
  destruct (Rle_lt_or_eq_dec _ _ P) as [L|E2]; [left; apply ln_increasing; lra|rewrite E2; lra].
Qed.

Lemma float_like_unit (N : num) (val : N -> R) u v eta most : float_like N val u eta most -> u <= v <= / 4 -> float_like N val v eta most.
Proof.
  intros F H. pose proof (fl_u _ _ _ _ _ F).
  assert (G : forall e x z, rounded_up_to u e x z -> rounded_up_to v e x z).
  { intros e x z (A & B). split; [|exact B]. pose proof (Rabs_pos x). assert (u * Rabs x <= v * Rabs x) by (apply Rmult_le_compat_r; lra). lra. }
  pose proof (fl_exp2 _ _ _ _ _ F) as X. destruct F. constructor; auto; try lra.
  intros a Ha. destruct (X a Ha) as [X1 X2]. split; [apply G; exact X1|exact X2].
Qed.

Section Errors.
Context {N : num}.
Variables (val : N -> R) (u eta : R) (most : nat).
Hypothesis F : float_like N val u eta most.
Notation cl k e := (fun (a : N) (r : R) => close u k e (val a) r).
Let U : 0 <= u <= / 4 := fl_u _ _ _ _ _ F.
Let E0 : 0 <= eta <= 1 := fl_eta _ _ _ _ _ F.

Lemma val_mul_l k j d a b a' b' : 0 <= d -> cl j 0 a a' -> cl k d b b' -> a' <= 1 -> cl (S (k + j)) (eta + d) (nmul a b) (a' * b').
Proof.
  intros Hd Ha Hb H1. pose proof (close_mul u U k j d _ _ _ _ Hd Hb Ha H1) as H.
  pose proof (fl_mul _ _ _ _ _ F a b) as Hr. rewrite (Rmult_comm (val a)) in Hr. apply (close_round u U eta) in Hr; [|lra|exact (proj1 H)].
  rewrite (Rmult_comm a'). exact (close_trans u U 1 (k + j) eta d _ _ _ ltac:(lra) Hd Hr H).
Qed.

(** 2^v - 1, for a grade. *)
Lemma exp_gain_error v : grade (val v) -> cl 4 0 (nsub (nexp2 v) none) (Rexp2 (val v) - 1).
Proof.
  intros G. cbv beta. assert (V : 0 <= val v) by (destruct G; lra).
  destruct (fl_exp2 _ _ _ _ _ F v V) as [(A & B & C) Z]. pose proof (Rexp2_pos (val v)) as P.
  rewrite (Rabs_pos_eq (Rexp2 (val v))) in A by lra. rewrite Rplus_0_r in A.
  pose proof (q_inv u U) as Q. pose proof (q_ge u U) as Q1. pose proof (q_ge1 u U) as Q2.
  assert (H : close u 3 0 (val (nexp2 v) - 1) (Rexp2 (val v) - 1)).
  { destruct G as [G|G].
    - rewrite (Z G), G, Rexp2_0. replace (1 - 1) with 0 by ring.
      apply (close_weaken u U 0 0); [apply close_refl; lra|lia|lra|lra].
    - apply Rexp2_grade in G. set (x := Rexp2 (val v)) in *. set (z := val (nexp2 v)) in *. clearbody x z.
      assert (K : (1 - u) * x <= z <= (1 + u) * x).
      { destruct (Rcase_abs (z - x)); [rewrite Rabs_left in A by auto|rewrite Rabs_right in A by auto]; nra. }
      assert (K1 : (1 - 2 * u) * (x - 1) <= z - 1) by nra.
      assert (K2 : z - 1 <= (1 + 2 * u) * (x - 1)) by nra.
      unfold close. rewrite !Rplus_0_r. cbn [pow]. rewrite Rmult_1_r. set (q := growth u) in *. clearbody q.
      assert (Q3 : 1 <= q * (q * q) * (1 - 2 * u)).
      { assert (q * (1 - u) = 1) by lra. assert ((1 - u) * (1 - u) * (1 - u) <= 1 - 2 * u) by nra.
        assert (0 < q * (q * q)) by (apply Rmult_lt_0_compat; nra).
        replace 1 with (q * (q * q) * ((1 - u) * (1 - u) * (1 - u))) at 1.
        - apply Rmult_le_compat_l; lra.
        - replace (q * (q * q) * ((1 - u) * (1 - u) * (1 - u))) with ((q * (1 - u)) * (q * (1 - u)) * (q * (1 - u))) by ring. rewrite H. ring. }
      assert (Q4 : 1 + 2 * u <= q * (q * q)) by nra.
      repeat split; try nra. }
  pose proof (fl_sub _ _ _ _ _ F (nexp2 v) none) as S. rewrite (fl_one _ _ _ _ _ F) in S.
  apply (close_round u U 0) in S; [|lra|exact (proj1 H)].
  pose proof (close_trans u U 1 3 0 0 _ _ _ ltac:(lra) ltac:(lra) S H) as T. rewrite Rplus_0_r in T. exact T.
Qed.

Definition proper (g : gain_kind) (v : R) : Prop := match g with Flat => 0 <= v | _ => grade v end.
Lemma gain_error g v : proper g (val v) -> cl 4 0 (gain g v) (gain (N:=RE) g (val v)).
Proof.
  intros H. destruct g; cbn [proper gain] in *; [|apply exp_gain_error; exact H|apply exp_gain_error; exact H].
  apply (close_weaken u U 0 0); [apply close_refl; exact H|lia|lra|lra].
Qed.

Lemma discount_R i : discount (N:=RE) i = Rlog2 (INR (i + 2)).
Proof. unfold discount, nofnat. cbn [nlog2 nofZ RE RN]. rewrite <- INR_IZR_INZ. reflexivity. Qed.
Lemma discount_error i : (i + 2 <= most)%nat -> cl 1 0 (discount i) (discount (N:=RE) i).
Proof.
  intros H. rewrite discount_R. unfold discount. cbv beta.
  assert (P : 2 <= INR (i + 2)) by (change 2 with (INR 2); apply le_INR; lia).
  pose proof (log2_ge1 _ P). pose proof (fl_log2 _ _ _ _ _ F (nofnat (i + 2))) as L. rewrite (fl_count _ _ _ _ _ F _ H) in L.
  apply close_round; [exact U|lra|lra|exact (L P)].
Qed.
Lemma discount_ge1 i : 1 <= discount (N:=RE) i.
Proof. rewrite discount_R. apply log2_ge1. change 2 with (INR 2). apply le_INR. lia. Qed.

Lemma forall2_positions {A B} (P : A -> B -> Prop) (f : nat * N -> A) (g : nat * R -> B) l : forall a,
  (forall i v, (a <= i < a + length l)%nat -> In v l -> P (f (i, v)) (g (i, val v))) ->
  Forall2 P (map f (combine (seq a (length l)) l)) (map g (combine (seq a (length (map val l))) (map val l))).
Proof.
  induction l as [|v l IH]; intros a H; cbn [length seq combine map]; constructor.
  - apply H; [cbn [length]; lia|left; reflexivity].
  - apply IH. intros i w Hi Hw. apply H; [cbn [length]; lia|right; exact Hw].
Qed.

Variable sum : list N -> N.
Variable D : nat -> nat.
Hypothesis sums_ok : forall l, sums (D (length l)) l (sum l).
Hypothesis D_mono : forall a b, (a <= b)%nat -> (D a <= D b)%nat.
Variable argsort : list N -> list nat.
Variable rargsort : list R -> list nat.
Hypothesis same_order : forall l, rargsort (map val l) = argsort l.
Hypothesis complete : forall l, length (argsort l) = length l.

Lemma sum_error k e l l' n : 0 <= e -> Forall2 (cl k e) l l' -> (length l <= n)%nat ->
  cl (k + D n) (INR n * e) (sum l) (nsum (N:=RE) l').
Proof.
  intros He H Hn. rewrite nsum_total. pose proof (val_sums val u eta most F k e _ _ _ l' He (sums_ok l) H) as S.
  apply (close_weaken u U _ _ _ _ _ _ S).
  - pose proof (D_mono _ _ Hn). lia.
  - apply Rmult_le_compat_r; [exact He|]. apply le_INR. exact Hn.
  - apply Rmult_le_pos; [apply pos_INR|exact He].
Qed.

Section Query.
Variables y s : list N.
Hypothesis same_size : length y = length s.
Hypothesis counted : (length y < most)%nat.
Notation n := (length y).

Lemma dcg_terms g (l : list N) : (length l <= n)%nat -> Forall (fun v => proper g (val v)) l ->
  Forall2 (cl 6 eta) (map (fun p => ndiv (gain g (snd p)) (discount (fst p))) (combine (seq 0 (length l)) l))
    (map (fun p => ndiv (n:=RE) (gain (N:=RE) g (snd p)) (discount (N:=RE) (fst p))) (combine (seq 0 (length (map val l))) (map val l))).
Proof.
  intros HL HP. apply forall2_positions. intros i v Hi Hv. cbn [fst snd].
  rewrite Forall_forall in HP. pose proof (discount_ge1 i). change (ndiv (n:=RE)) with Rdiv.
  pose proof (val_div val u eta most F 4 1 0 0 (gain g v) (discount i) (gain (N:=RE) g (val v)) (discount (N:=RE) i)
    ltac:(lra) ltac:(lra) ltac:(lra) ltac:(lra) (gain_error g v (HP v Hv)) (discount_error i ltac:(lia))) as H1.
  rewrite Rplus_0_r in H1. exact H1.
Qed.

Lemma dcg_error g k s' : length s' = n -> Forall (fun v => proper g (val v)) y ->
  agree (cl (6 + D n) (INR n * eta)) (dcg_by sum argsort g k y s') (dcg (N:=RE) rargsort g k (map val y) (map val s')).
Proof.
  intros Hs HP. unfold dcg_by, dcg. rewrite (order_map val argsort rargsort same_order), (take_map val).
  destruct (take y (order argsort k s')) as [l|e] eqn:E.
  - assert (HL : (length l <= n)%nat) by (rewrite <- Hs; exact (take_order_length argsort complete k y s' l E)).
    assert (HP' : Forall (fun v => proper g (val v)) l).
    { rewrite Forall_forall in *. intros v Hv. apply HP. exact (take_In _ _ _ _ E Hv). }
    destruct g; cbn [bind agree]; try reflexivity;
      (apply sum_error; [lra|apply dcg_terms; assumption|rewrite map_length, combine_length, seq_length; lia]).
  - destruct g; reflexivity.
Qed.

Lemma total_zero_or_large w l : 0 < w -> Forall (fun x => x = 0 \/ w <= x) l -> Rtotal l = 0 \/ w <= Rtotal l.
Proof.
  intros Hw H. induction H as [|x l Hx Hl IH]; unfold Rtotal in *; cbn [fold_right]; [left; reflexivity|].
  destruct Hx, IH; [left; lra|right; lra|right; lra|right; lra].
Qed.
Lemma gain_grade g v : grade v -> gain (N:=RE) g v = 0 \/ 1 <= gain (N:=RE) g v.
Proof.
  intros [->|H].
  - left. destruct g; cbn [gain]; try reflexivity; change (nsub (n:=RE)) with Rminus; change (nexp2 (n:=RE)) with Rexp2;
      change (none (n:=RE)) with 1; rewrite Rexp2_0; lra.
  - right. pose proof (Rexp2_grade v H). destruct g; cbn [gain]; try exact H; change (nsub (n:=RE)) with Rminus; change (nexp2 (n:=RE)) with Rexp2;
      change (none (n:=RE)) with 1; lra.
Qed.
Lemma dcg_zero_or_large g (l : list R) : (length l <= n)%nat -> Forall grade l ->
  let t := nsum (N:=RE) (map (fun p => ndiv (n:=RE) (gain (N:=RE) g (snd p)) (discount (N:=RE) (fst p))) (combine (seq 0 (length l)) l)) in
  t = 0 \/ / INR (n + 1) <= t.
Proof.
  intros HL HG. cbv zeta. rewrite nsum_total. assert (P : 0 < INR (n + 1)) by (apply lt_0_INR; lia).
  apply total_zero_or_large; [apply Rinv_0_lt_compat; exact P|].
  rewrite Forall_forall. intros x Hx. apply in_map_iff in Hx as ((i & v) & <- & Hiv). cbn [fst snd].
  pose proof (in_combine_l _ _ _ _ Hiv) as Hi. apply in_seq in Hi. apply in_combine_r in Hiv.
  rewrite Forall_forall in HG. change (ndiv (n:=RE)) with Rdiv. pose proof (discount_ge1 i) as D1.
  destruct (gain_grade g v (HG v Hiv)) as [->|G]; [left; unfold Rdiv; ring|right].
  assert (D2 : discount (N:=RE) i <= INR (n + 1)).
  { rewrite discount_R. apply (Rle_trans _ _ _ (log2_le i)). apply le_INR. lia. }
  unfold Rdiv. apply Rle_trans with (1 * / discount (N:=RE) i).
  - rewrite Rmult_1_l. apply Rinv_le_contravar; [change (car RE) with R in *; lra|exact D2].
  - apply Rmult_le_compat_r; [left; apply Rinv_0_lt_compat; change (car RE) with R in *; lra|exact G].
Qed.

Definition ndcg_steps : nat := 14 + 2 * D n.
Definition ndcg_lost : R := eta + INR n * INR (n + 1) * eta.
Lemma ndcg_error r g k : 0 <= val r -> Forall (fun v => grade (val v)) y ->
  growth u ^ (6 + D n) * (INR n * eta) <= u * / INR (n + 1) ->
  agree (cl ndcg_steps ndcg_lost) (ndcg_by sum argsort r g k y s) (ndcg_fresh (N:=RE) rargsort (val r) g k (map val y) (map val s)).
Proof.
  intros Hr HG Hsm. unfold ndcg_by, ndcg_fresh.
  assert (HP : Forall (fun v => proper g (val v)) y).
  { eapply Forall_impl; [|exact HG]. intros a [A|A]; destruct g; cbn [proper]; try lra; try (left; exact A); right; exact A. }
  pose proof (dcg_error g k s (eq_sym same_size) HP) as A. pose proof (dcg_error g k y eq_refl HP) as B.
  assert (Z : forall t, dcg (N:=RE) rargsort g k (map val y) (map val y) = Ok t -> t = 0 \/ / INR (n + 1) <= t).
  { intros t Ht. unfold dcg in Ht. rewrite (order_map val argsort rargsort same_order), (take_map val) in Ht.
    destruct (take y (order argsort k y)) as [l|e] eqn:E; [|destruct g; discriminate Ht].
    assert (HL : (length l <= n)%nat) by exact (take_order_length argsort complete k y y l E).
    assert (HG' : Forall grade (map val l)).
    { rewrite Forall_forall in *. intros v Hv. apply in_map_iff in Hv as (w & <- & Hw). apply HG. exact (take_In _ _ _ _ E Hw). }
    rewrite <- (map_length val) in HL.
    destruct g; cbn [bind] in Ht; try discriminate Ht; injection Ht as <-;
      first [exact (dcg_zero_or_large Flat _ HL HG')|exact (dcg_zero_or_large Exp _ HL HG')]. }
  destruct (dcg_by sum argsort g k y s) as [d|e1]; destruct (dcg (N:=RE) rargsort g k (map val y) (map val s)) as [d'|e1'];
    cbn [agree] in A; try contradiction; cbn [bind agree]; [|exact A].
  destruct (dcg_by sum argsort g k y y) as [i|e2]; destruct (dcg (N:=RE) rargsort g k (map val y) (map val y)) as [i'|e2'];
    cbn [agree] in B; try contradiction; cbn [bind agree]; [|exact B].
  specialize (Z i' eq_refl). unfold ndcg_of. rewrite (fl_eqb _ _ _ _ _ F), (fl_zero _ _ _ _ _ F).
  change (neqb (n:=RE) i' nzero) with (Reqb i' 0). change (ndiv (n:=RE)) with Rdiv.
  assert (P : 0 < INR (n + 1)) by (apply lt_0_INR; lia).
  assert (PI : 0 < / INR (n + 1)) by (apply Rinv_0_lt_compat; exact P).
  assert (Le : 0 <= INR n * eta) by (apply Rmult_le_pos; [apply pos_INR|lra]).
  assert (Le2 : 0 <= INR n * INR (n + 1) * eta) by (apply Rmult_le_pos; [apply Rmult_le_pos; [apply pos_INR|lra]|lra]).
  unfold Reqb. change (car RE) with R in *.
  destruct (Req_EM_T i' 0) as [I0|I0].
  - subst i'. destruct B as (_ & _ & _ & _ & B). destruct (Req_EM_T (val i) 0) as [J|J]; [|exfalso; apply J; apply B; reflexivity].
    cbn [negb]. apply (close_weaken u U 0 0); [apply close_refl; exact Hr|lia|unfold ndcg_lost; lra|lra].
  - destruct Z as [Z|Z]; [exfalso; apply I0; exact Z|].
    pose proof (close_absorb u U _ _ _ _ _ Le PI Z Hsm B) as B'. assert (I1 : 0 < i') by lra.
    pose proof (close_pos u U _ _ _ B' I1). destruct (Req_EM_T (val i) 0) as [J|J]; [exfalso; lra|]. cbn [negb].
    assert (Hd : INR n * eta <= (INR n * INR (n + 1) * eta) * i').
    { replace (INR n * INR (n + 1) * eta * i') with (INR n * eta * (INR (n + 1) * i')) by ring.
      rewrite <- (Rmult_1_r (INR n * eta)) at 1. apply Rmult_le_compat_l; [exact Le|].
      rewrite <- (Rinv_r (INR (n + 1))) by lra. apply Rmult_le_compat_l; lra. }
    pose proof (val_div val u eta most F (6 + D n) (S (6 + D n)) _ (INR n * INR (n + 1) * eta) d i d' i' Le Le2 I1 Hd A B') as R.
    apply (close_weaken u U _ _ _ _ _ _ R); [unfold ndcg_steps; lia|unfold ndcg_lost; lra|lra].
Qed.

(** ** RBP *)
Lemma rbp_error k t p : 0 <= val p <= 1 ->
  agree (cl (4 + D n) (eta + INR n * (eta + eta))) (rbp_by sum argsort k t p y s) (rbp (N:=RE) rargsort k (val t) (val p) (map val y) (map val s)).
Proof.
  intros Hp. unfold rbp_by, rbp. rewrite (order_map val argsort rargsort same_order), (take_map val).
  destruct (take y (order argsort k s)) as [l|e] eqn:E; cbn [bind agree]; [|reflexivity].
  assert (HL : (length l <= n)%nat) by (rewrite same_size; exact (take_order_length argsort complete k y s l E)).
  change (nmul (n:=RE)) with Rmult. change (nsub (n:=RE)) with Rminus. change (none (n:=RE)) with 1.
  assert (A : cl 1 0 (nsub none p) (1 - val p)).
  { pose proof (fl_sub _ _ _ _ _ F none p) as S. rewrite (fl_one _ _ _ _ _ F) in S. apply (close_round u U 0); [lra|lra|exact S]. }
  assert (B : cl (2 + D n) (INR n * (eta + eta))
     (sum (map (fun q => nmul (if nleb t (snd q) then none else nzero) (npow p (fst q))) (combine (seq 0 (length l)) l)))
     (nsum (N:=RE) (map (fun q => (if nleb (n:=RE) (val t) (snd q) then 1 else nzero (n:=RE)) * npow (n:=RE) (val p) (fst q))
                       (combine (seq 0 (length (map val l))) (map val l))))).
  { apply (sum_error 2 (eta + eta)); [lra| |rewrite map_length, combine_length, seq_length; lia].
    apply forall2_positions. intros i v Hi Hv. cbn [fst snd]. change (npow (n:=RE)) with pow. change (nzero (n:=RE)) with 0.
    rewrite (fl_leb _ _ _ _ _ F). change (nleb (n:=RE)) with Rleb.
    assert (Q : cl 1 eta (npow p i) (val p ^ i)).
    { apply close_round; [exact U|lra|apply pow_le; lra|apply (fl_pow _ _ _ _ _ F); exact Hp]. }
    destruct (Rleb (val t) (val v)).
    - apply (val_mul_l 1 0 eta); [lra|exact (val_one val u eta most F)|exact Q|lra].
    - apply (val_mul_l 1 0 eta); [lra|apply (close_zero val u eta most F); lra|exact Q|lra]. }
  assert (L : 0 <= INR n * (eta + eta)) by (apply Rmult_le_pos; [apply pos_INR|lra]).
  pose proof (val_mul_l (2 + D n) 1 _ _ _ _ _ L A B ltac:(lra)) as C.
  apply (close_weaken u U _ _ _ _ _ _ C); [lia|lra|lra].
Qed.

(** ** Squared errors *)
Lemma square_error a b : cl 3 eta (sq (nsub a b)) (sq (N:=RE) (val a - val b)).
Proof.
  unfold sq. change (nmul (n:=RE)) with Rmult. cbv beta.
  destruct (fl_sub _ _ _ _ _ F a b) as (A & B & C). set (x := val a - val b) in *. rewrite Rplus_0_r in A.
  pose proof (q_ge u U) as Q1. pose proof (q_inv u U) as Q. pose proof (q_ge1 u U) as Q2.
  assert (H : close u 2 0 (val (nsub a b) * val (nsub a b)) (x * x)).
  { set (z := val (nsub a b)) in *. clearbody x z.
    assert (K : (1 - u) * Rabs x <= Rabs z <= (1 + u) * Rabs x).
    { unfold Rabs in *. destruct (Rcase_abs x), (Rcase_abs z), (Rcase_abs (z - x)); lra. }
    pose proof (Rabs_pos x) as P1. pose proof (Rabs_pos z) as P2.
    replace (z * z) with (Rabs z * Rabs z) by (unfold Rabs; destruct (Rcase_abs z); ring).
    replace (x * x) with (Rabs x * Rabs x) by (unfold Rabs; destruct (Rcase_abs x); ring).
    set (X := Rabs x) in *. set (Z := Rabs z) in *. clearbody X Z. set (q := growth u) in *.
    assert (K1 : Z <= q * X) by nra.
    assert (K2 : X <= q * Z). { replace X with (q * ((1 - u) * X)) by (rewrite <- Rmult_assoc, (Rmult_comm q), Q; ring). apply Rmult_le_compat_l; lra. }
    unfold close. fold q. rewrite !Rplus_0_r. cbn [pow]. rewrite Rmult_1_r. clearbody q.
    split; [nra|]. split; [nra|].
    split; [replace (q * q * (X * X)) with ((q * X) * (q * X)) by ring; apply Rmult_le_compat; lra|].
    split; [replace (q * q * (Z * Z)) with ((q * Z) * (q * Z)) by ring; apply Rmult_le_compat; lra|].
    intros H0. assert (X = 0) by (apply Rmult_integral in H0 as [H0|H0]; exact H0). subst X. rewrite Rmult_0_r in K1.
    assert (Z = 0) by lra. subst Z. ring. }
  pose proof (fl_mul _ _ _ _ _ F (nsub a b) (nsub a b)) as M. apply (close_round u U eta) in M; [|lra|exact (proj1 H)].
  pose proof (close_trans u U 1 2 eta 0 _ _ _ ltac:(lra) ltac:(lra) M H) as T. rewrite Rplus_0_r in T. exact T.
Qed.
Lemma squares_error (a b : list N) : Forall2 (cl 3 eta) (map (fun q => sq (nsub (fst q) (snd q))) (combine a b))
  (map (fun q => sq (N:=RE) (nsub (n:=RE) (fst q) (snd q))) (combine (map val a) (map val b))).
Proof.
  revert b. induction a as [|x a IH]; intros [|z b]; cbn [combine map]; constructor; [|apply IH].
  cbn [fst snd]. exact (square_error x z).
Qed.
Lemma mse_error k : agree (cl (3 + D n) (INR n * eta)) (mse_by sum argsort k y s) (mse_pq (N:=RE) rargsort k (map val y) (map val s)).
Proof.
  unfold mse_by, mse_pq. destruct k as [k|].
  - rewrite (order_map val argsort rargsort same_order), !(take_map val).
    destruct (take y (order argsort (Some k) s)) as [l|e] eqn:E; cbn [bind agree]; [|reflexivity].
    destruct (take s (order argsort (Some k) s)) as [l'|e]; cbn [bind agree]; [|reflexivity].
    assert (HL : (length l <= n)%nat) by (rewrite same_size; exact (take_order_length argsort complete _ y s l E)).
    apply sum_error; [lra|apply squares_error|rewrite map_length, combine_length; lia].
  - rewrite !map_length, same_size, Nat.eqb_refl. cbn [negb agree]. rewrite <- same_size.
    apply sum_error; [lra|apply squares_error|rewrite map_length, combine_length; lia].
Qed.
Lemma rmse_error k : agree (cl (4 + D n) (sqrt (INR n * eta))) (rmse_by sum argsort k y s) (rmse_pq (N:=RE) rargsort k (map val y) (map val s)).
Proof.
  unfold rmse_by, rmse_pq. pose proof (mse_error k) as A.
  destruct (mse_by sum argsort k y s) as [m|e]; destruct (mse_pq (N:=RE) rargsort k (map val y) (map val s)) as [m'|e'];
    cbn [agree] in A; try contradiction; cbn [bind agree]; [|exact A].
  assert (L : 0 <= INR n * eta) by (apply Rmult_le_pos; [apply pos_INR|lra]).
  pose proof (close_sqrt u U _ _ _ _ L A) as B. pose proof (fl_sqrt _ _ _ _ _ F m (proj1 A)) as S.
  apply (close_round u U 0) in S; [|lra|apply sqrt_pos].
  pose proof (close_trans u U 1 (3 + D n) 0 _ _ _ _ ltac:(lra) (sqrt_pos (INR n * eta)) S B) as T. rewrite Rplus_0_l in T. exact T.
Qed.
End Query.
End Errors.
