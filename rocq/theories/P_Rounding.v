(** Rounding errors of float32 scoring: C85. *)
From Coq Require Import List ZArith Reals Lia Lra Bool.
From Verif Require Import Base Lists Num M_Dataset S_Dataset M_NDCG M_Float S_Ensemble M_Ensemble M_Schedule S_Rounding
  L_Rounding L_Rounding2 L_Rounding3.
Import ListNotations.
Local Open Scope R_scope.

(** C85: the operations of the float32 arithmetic of the model round to nearest. *)
Theorem C85_nearest : forall a b : F32N,
  nearest32 (real32 a + real32 b) (nadd (n:=F32N) a b) /\
  nearest32 (real32 a - real32 b) (nsub (n:=F32N) a b) /\
  nearest32 (real32 a * real32 b) (nmul (n:=F32N) a b) /\
  (real32 b <> 0 -> nearest32 (real32 a / real32 b) (ndiv (n:=F32N) a b)).
Proof. exact C85_nearest_lemma. Qed.
Print Assumptions C85_nearest.

Theorem C85_operations : forall a b : F32N,
  Rabs (real32 (nadd (n:=F32N) a b) - (real32 a + real32 b)) <= roundoff * Rabs (real32 a + real32 b) /\
  Rabs (real32 (nsub (n:=F32N) a b) - (real32 a - real32 b)) <= roundoff * Rabs (real32 a - real32 b) /\
  Rabs (real32 (nmul (n:=F32N) a b) - real32 a * real32 b) <= roundoff * Rabs (real32 a * real32 b) + tiny /\
  (real32 b <> 0 -> Rabs (real32 (ndiv (n:=F32N) a b) - real32 a / real32 b) <= roundoff * Rabs (real32 a / real32 b) + tiny).
Proof. exact C85_operations_lemma. Qed.
Print Assumptions C85_operations.

Theorem C85_score_error : forall (e : ensemble F32N) ts ws X, encodes e ts ws -> (forall row, In row X -> covers row ts) ->
  exists ys, basic_scoring e X = Ok ys /\
    Forall2 (fun row y => Rabs (real32 y - exact_score ws ts row) <= score_error ws ts row) X ys.
Proof. exact C85_score_lemma. Qed.
Print Assumptions C85_score_error.

(** Whatever the order and the bracketing of the additions (NumPy's sum over the trees). *)
Theorem C85_any_order_of_additions : forall ws (ts : list (tree Z F32N)) row x, length ws = length ts ->
  summed (tree_scores ws ts row) x -> Rabs (real32 x - exact_score ws ts row) <= score_error ws ts row.
Proof. exact sum_within. Qed.
Print Assumptions C85_any_order_of_additions.

(** What score returns, detailed or not, whatever was scored before. *)
Theorem C85_after_any_history : forall (rowsum : list F32N -> F32N) digest (m0 : model F32N) ts ws h (o : obj (N:=F32N)) det cache,
  (forall l, summed l (rowsum l)) ->
  laid_out (m_ens m0) ts ws -> ts <> [] -> nonneg_features ts -> m_cache m0 = [] ->
  (forall k, In k (o :: scored h) -> rect (snd k)) -> distinguishable digest (o :: scored h) -> ~ too_wide (ds_nf (snd o)) ts ->
  exists ys p l,
    snd (score rowsum digest (score_after rowsum digest m0 h) o det cache) = Ok (if det then Detailed (Some ys) p l else Basic (Some ys)) /\
    Forall2 (fun row y => Rabs (real32 y - exact_final (m_lr m0) (m_base m0) ws ts row) <= final_error (m_lr m0) (m_base m0) ws ts row)
            (ds_X (snd o)) ys.
Proof. exact C85_history_lemma. Qed.
Print Assumptions C85_after_any_history.

Theorem C85_finite_values : forall k, in_range k <-> Rabs (real32 k) < 2 ^ 128.
Proof. exact in_range_bound. Qed.
Print Assumptions C85_finite_values.
Theorem C85_no_overflow : forall ws (ts : list (tree Z F32N)) row, length ws = length ts ->
  let n := length ts in (1 + roundoff) ^ n * mass ws ts row + INR n * (1 + roundoff) ^ n * tiny < 2 ^ 128 ->
  Forall in_range (tree_scores ws ts row) /\
  forall k, in_range (ensemble_score (firstn k ws) (firstn k ts) row).
Proof. exact C85_overflow_lemma. Qed.
Print Assumptions C85_no_overflow.

Theorem C85_order : forall (e : ensemble F32N) ts ws X, encodes e ts ws -> (forall row, In row X -> covers row ts) ->
  exists ys, basic_scoring e X = Ok ys /\ length ys = length X /\
    forall i j r r' y y', nth_error X i = Some r -> nth_error X j = Some r' -> nth_error ys i = Some y -> nth_error ys j = Some y' ->
      score_error ws ts r + score_error ws ts r' < exact_score ws ts r' - exact_score ws ts r -> nltb (n:=F32N) y y' = true.
Proof. exact C85_order_lemma. Qed.
Print Assumptions C85_order.

(** ** Examples *)
Ltac value := rewrite ?real32_val; unfold val;
  match goal with |- IZR ?a / _ = ?r =>
    let z := eval vm_compute in (a / 2 ^ 149)%Z in
    replace a with (z * 2 ^ 149)%Z by (vm_compute; reflexivity); rewrite mult_IZR, IZR_unit; field end.
Definition one32 : Z := 1065353216.
Definition big32 : Z := 1266679808.
Lemma one32_value : real32 one32 = 1. Proof. value. Qed.
Lemma big32_value : real32 big32 = 16777216. Proof. value. Qed.
Lemma zero32_value : real32 0 = 0. Proof. value. Qed.

(** Eight trees, each a leaf: 2^24, then seven times 1.  The sum is 2^24 + 7, the score 2^24:
    the error is 7, the bound a little more than 8. *)
Definition ex8_trees : list (tree Z F32N) := Leaf 0%Z big32 :: map (fun i => Leaf i one32) [1; 2; 3; 4; 5; 6; 7]%Z.
Definition ex8_ens : ensemble F32N :=
  mkEns (N:=F32N) 8 8 (zrange 0 8) (repeat one32 8) (repeat (-1)%Z 8) (repeat (-1)%Z 8) (big32 :: repeat one32 7) (repeat (-1)%Z 8).
Example ex8_encodes : encodes ex8_ens ex8_trees (repeat one32 8).
Proof.
  split; [vm_compute; reflexivity|]. split; [vm_compute; reflexivity|]. split; [reflexivity|]. split; [reflexivity|].
  repeat constructor.
Qed.
Lemma ex8_exact row : exact_score (repeat one32 8) ex8_trees row = 16777223.
Proof.
  unfold exact_score, exact_parts, ex8_trees, Rtotal. cbn [repeat map combine fst snd fold_right exit_leaf].
  rewrite one32_value, big32_value. lra.
Qed.
Lemma ex8_mass row : mass (repeat one32 8) ex8_trees row = 16777223.
Proof.
  unfold mass, exact_parts, ex8_trees, Rtotal. cbn [repeat map combine fst snd fold_right exit_leaf].
  rewrite one32_value, big32_value. rewrite !Rabs_pos_eq by lra. lra.
Qed.
Example C85_example_error : forall row,
  basic_scoring ex8_ens [row] = Ok [big32] /\ real32 big32 = 16777216 /\
  exact_score (repeat one32 8) ex8_trees row = 16777223 /\ 7 < score_error (repeat one32 8) ex8_trees row < 8.1.
Proof.
  intros row. split; [reflexivity|]. split; [apply big32_value|]. split; [apply ex8_exact|].
  unfold score_error. cbv zeta. rewrite ex8_mass. replace (length ex8_trees) with 8%nat by reflexivity. change (INR 8) with (INR 8).
  assert (R : roundoff = / 16777216) by (unfold roundoff; f_equal; lra).
  assert (T : 0 < tiny <= / 1048576).
  { split; [apply tiny_pos|]. unfold tiny. replace 1048576 with (2 ^ 20) by lra. change 150%nat with (20 + 130)%nat. rewrite pow_add.
    assert (0 < 2 ^ 20) by (apply pow_lt; lra). assert (1 <= 2 ^ 130) by (apply pow_R1_Rle; lra). apply Rinv_le_contravar; nra. }
  rewrite R. replace (INR 8) with 8 by (cbn; lra). cbn [pow]. lra.
Qed.

(** Exact scores 2^24 and 2^24 + 1, equal in float32: without the gap the order is not kept. *)
Definition ex2_trees : list (tree Z F32N) := [Leaf 0%Z big32; Node 1%Z 0%Z 0%Z (Leaf 2%Z 0%Z) (Leaf 3%Z one32)].
Definition ex2_ens : ensemble F32N :=
  mkEns (N:=F32N) 2 4 [0; 1]%Z [one32; one32] [-1; 2; -1; -1]%Z [-1; 3; -1; -1]%Z [big32; 0; 0; one32]%Z [-1; 0; -1; -1]%Z.
Theorem C85_order_without_gap_refuted :
  encodes ex2_ens ex2_trees [one32; one32] /\ basic_scoring ex2_ens [[0%Z]; [one32]] = Ok [big32; big32] /\
  exact_score [one32; one32] ex2_trees [0%Z] = 16777216 /\ exact_score [one32; one32] ex2_trees [one32] = 16777217.
Proof.
  split; [|split; [vm_compute; reflexivity|]].
  - split; [reflexivity|]. split; [reflexivity|]. split; [reflexivity|]. split; [reflexivity|]. repeat constructor.
  - split.
    + transitivity (real32 one32 * real32 big32 + (real32 one32 * real32 0 + 0)); [reflexivity|].
      rewrite one32_value, big32_value, zero32_value. lra.
    + transitivity (real32 one32 * real32 big32 + (real32 one32 * real32 one32 + 0)); [reflexivity|].
      rewrite one32_value, big32_value. lra.
Qed.
Print Assumptions C85_order_without_gap_refuted.

(** Twice the largest float32: the sum is out of range. *)
Example C85_overflow_example :
  in_range 2139095039 /\ real32 2139095039 = max32 /\
  ~ in_range (ensemble_score (N:=F32N) [one32; one32] [Leaf 0%Z 2139095039%Z; Leaf 1%Z 2139095039%Z] []).
Proof.
  split; [unfold in_range; lia|]. split; [exact (proj2 max32_largest)|]. unfold in_range.
  replace (ensemble_score (N:=F32N) [one32; one32] [Leaf 0%Z 2139095039%Z; Leaf 1%Z 2139095039%Z] []) with 2147483647%Z by (vm_compute; reflexivity).
  lia.
Qed.
(** A learning rate of 1/2 and a base score of 1: the final score of the eight trees. *)
Definition half32 : Z := 1056964608.
Definition plain32 (r : res (answer (N:=F32N))) : list Z := match r with Ok (Basic (Some y)) => y | _ => [] end.
Example C85_final_example :
  plain32 (snd (score (N:=F32N) (fun l => fold_left nadd l nzero) (fun _ _ _ => 0%Z) (mkModel (N:=F32N) ex8_ens half32 (Some one32) [])
         (1%nat, mkDataset [[0%Z]] 1 [0%Z] [4%Z] [0; 1]%nat) false true))
  = [1258291201%Z].
Proof. vm_compute; reflexivity. Qed.
Example C85_final_value : real32 1258291201 = 8388609.
Proof. value. Qed.
Example C85_half : real32 half32 = / 2.
Proof.
  assert (E : val half32 * 2 = 2 ^ 149). { unfold val. rewrite <- mult_IZR, <- IZR_unit. replace (sval half32 * 2)%Z with (2 ^ 149)%Z by (vm_compute; reflexivity). reflexivity. }
  pose proof unit_pos as P. rewrite real32_val. revert E P. generalize (val half32) (2 ^ 149). intros x y E P. subst y. field. lra.
Qed.
