(** NDCG when the ideal DCG goes through a rounding (float32) before the division. *)
From Coq Require Import List ZArith Reals Lia Lra Bool Permutation Sorted.
From Verif Require Import Base Lists Num M_Dataset M_Metrics S_Metrics L_Metrics L_MetricsR L_MetricsR2 M_NDCG S_NDCG.
Import ListNotations.
Local Open Scope R_scope.

Lemma C24_round_lemma (rnd : R -> R) (eps : R) (argsort : list R -> list nat) (norel : R) g cutoff (y s : list R) :
  sorting (N:=RE) argsort -> 0 <= eps < 1 -> (forall x, Rabs (rnd x - x) <= eps * Rabs x) ->
  length y = length s -> g <> OtherImpl -> Forall (fun v => 0 <= v) y ->
  (0 < retrieved cutoff (length s))%nat -> Exists (fun v => 0 < v) y ->
  exists v : R, ndcg32 (N:=RN rnd) argsort norel g cutoff y s = Ok v /\ 0 <= v <= 1 / (1 - eps) /\
    (StronglySorted (fun a b => b <= a) (ranked (N:=RE) argsort y s) -> 1 / (1 + eps) <= v).
Proof.
  intros Hs He Hr HL Hg Hy HK HE.
  pose proof (dcg_value argsort Hs g cutoff y s HL Hg) as E1.
  pose proof (dcg_value argsort Hs g cutoff y y eq_refl Hg) as E2.
  destruct (C24_lemma argsort Hs norel g cutoff y s HL Hg Hy) as [_ C].
  destruct (C HK HE) as (v & _ & Ev & IP & V01 & V1).
  set (I := dcgR g (lab argsort y y) (retrieved cutoff (length s))) in *.
  set (D := dcgR g (lab argsort y s) (retrieved cutoff (length s))) in *.
  unfold ndcg32.
  change (dcg (N:=RN rnd) argsort g cutoff y s) with (eval_per_query (N:=RE) argsort (DCG (N:=RE) g cutoff) y s).
  change (dcg (N:=RN rnd) argsort g cutoff y y) with (eval_per_query (N:=RE) argsort (DCG (N:=RE) g cutoff) y y).
  change (car RE) with R in *. rewrite E1, E2. rewrite HL. fold I D. cbn [bind].
  change (nf32 (n:=RN rnd) I) with (rnd I). change (neqb (n:=RN rnd) (rnd I) nzero) with (Reqb (rnd I) 0).
  fold I in IP, Ev. fold D in Ev. clearbody I D. specialize (Hr I). rewrite (Rabs_pos_eq I) in Hr by lra.
  assert (B : (1 - eps) * I <= rnd I <= (1 + eps) * I).
  { destruct (Rcase_abs (rnd I - I)) as [c|c].
    - rewrite Rabs_left in Hr by auto. lra.
    - rewrite Rabs_right in Hr by auto. lra. }
  assert (P : 0 < (1 - eps) * I) by (apply Rmult_lt_0_compat; lra).
  assert (Reqb (rnd I) 0 = false) as -> by (apply Reqb_false; lra).
  exists (D / rnd I). split; [reflexivity|].
  assert (D0 : 0 <= D <= I).
  { split.
    - replace D with (v * I) by (rewrite Ev; unfold Rdiv; rewrite Rmult_assoc, Rinv_l by lra; ring).
      apply Rmult_le_pos; lra.
    - replace D with (v * I) by (rewrite Ev; unfold Rdiv; rewrite Rmult_assoc, Rinv_l by lra; ring).
      rewrite <- (Rmult_1_l I) at 2. apply Rmult_le_compat_r; lra. }
  assert (RI : 0 < rnd I) by lra.
  split; [split|].
  - apply Rmult_le_pos; [lra|]. left. apply Rinv_0_lt_compat; auto.
  - apply Rmult_le_reg_r with (rnd I); auto. unfold Rdiv at 1. rewrite Rmult_assoc, Rinv_l by lra.
    apply Rmult_le_reg_l with (1 - eps); [lra|].
    replace ((1 - eps) * (1 / (1 - eps) * rnd I)) with (rnd I) by (field; lra).
    assert ((1 - eps) * D <= (1 - eps) * I) by (apply Rmult_le_compat_l; lra). lra.
  - intros SS. specialize (V1 SS).
    assert (DI : D = I). { rewrite V1 in Ev. symmetry. apply Rmult_eq_reg_r with (/ I); [|apply Rinv_neq_0_compat; lra]. rewrite Rinv_r by lra. exact Ev. }
    rewrite DI. apply Rmult_le_reg_r with (rnd I); auto. unfold Rdiv at 2. rewrite Rmult_assoc, Rinv_l by lra.
    apply Rmult_le_reg_l with (1 + eps); [lra|].
    replace ((1 + eps) * (1 / (1 + eps) * rnd I)) with (rnd I) by (field; lra). lra.
Qed.
