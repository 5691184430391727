(** Rounding errors of the metrics: C89. *)
From Coq Require Import List ZArith Reals Lia Lra Permutation Bool.
From Verif Require Import Base Lists Num M_Dataset M_Metrics M_Float S_Rounding L_Rounding2 L_MetricsR M_MetricSums S_MetricError
  L_MetricError L_MetricError2 L_MetricError3 L_MetricError4 L_MetricError5 L_MetricError6 L_MetricError7.
Import ListNotations.
Local Open Scope R_scope.

(** C89: with sums from left to right the metrics of M_MetricSums.v are those of M_Metrics.v. *)
Theorem C89_sequential : forall (N : num) (argsort : list N -> list nat),
  (forall m y s, per_query_by nsum argsort m y s = eval_per_query argsort m y s) /\
  (forall k y s, mse_by nsum argsort k y s = mse_pq argsort k y s) /\
  (forall f d s, eval_by (N:=N) nsum f d s = metric_eval (N:=N) f d s) /\
  (forall k d s, mse_eval_by nsum argsort k d s = mse_eval argsort k d s).
Proof. exact @sequential. Qed.
Print Assumptions C89_sequential.

Theorem C89_sequential_depth : forall (N : num), summation (N:=N) nsum (fun n => n).
Proof. intros N. split; [exact sequential_sums|auto]. Qed.
Print Assumptions C89_sequential_depth.

(** The value of every metric on a query, against the same metric in exact arithmetic. *)
Theorem C89_per_query : forall (N : num) (val : N -> R) u eta most, float_like N val u eta most ->
  forall sum D, summation sum D -> forall argsort rargsort, ranks_alike val argsort rargsort ->
  forall v m (y s : list N), u <= v <= / 4 -> length y = length s -> (length y < most)%nat -> suitable val u v eta D m y ->
  agree (fun a b => close v (steps D m (length y)) (lost eta m (length y)) (val a) b)
    (per_query_by sum argsort m y s) (eval_per_query (N:=RE) rargsort (real_metric val m) (map val y) (map val s)).
Proof. exact @per_query_error. Qed.
Print Assumptions C89_per_query.

(** The squared error of a query. *)
Theorem C89_squared_error : forall (N : num) (val : N -> R) u eta most, float_like N val u eta most ->
  forall sum D, summation sum D -> forall argsort rargsort, ranks_alike val argsort rargsort ->
  forall k (y s : list N), length y = length s -> (length y < most)%nat ->
  agree (fun a b => close u (3 + D (length y)) (INR (length y) * eta) (val a) b)
    (mse_by sum argsort k y s) (mse_pq (N:=RE) rargsort k (map val y) (map val s)).
Proof. intros N val u eta most F sum D [S1 S2] argsort rargsort [A1 A2] k y s HL HC. exact (mse_error val u eta most F sum D S1 S2 argsort rargsort A1 A2 y s HL HC k). Qed.
Print Assumptions C89_squared_error.

(** Metric.eval: the vector stored in float32 and its mean, for any metric whose value on each
    query is known up to [k] roundings and [e]. *)
Theorem C89_mean : forall (N : num) (val : N -> R) u eta most, float_like N val u eta most ->
  forall sum D, summation sum D -> forall k e (f : list N -> list N -> res N) (g : list R -> list R -> res R) (d : dataset N) (s : list N),
  0 <= e -> (0 < n_queries d <= most)%nat ->
  (forall t, In t (metric_queries d s) ->
     agree (fun a b => close u k e (val a) b) (f (fst (snd t)) (snd (snd t))) (g (map val (fst (snd t))) (map val (snd (snd t))))) ->
  agree (fun r r' => close u (k + 2 + D (n_queries d)) (e + eta + eta) (val (fst r)) (fst r') /\
                     Forall2 (fun a b => close u (S k) (e + eta) (val a) b) (snd r) (snd r'))
    (eval_by sum f d s) (metric_eval (N:=RE) g (real_dataset val d) (map val s)).
Proof. intros N val u eta most F sum D [S1 S2]. exact (eval_error val u eta most F sum D S1 S2). Qed.
Print Assumptions C89_mean.

Theorem C89_mean_squared_error : forall (N : num) (val : N -> R) u eta most, float_like N val u eta most ->
  forall sum D, summation sum D -> forall argsort rargsort, ranks_alike val argsort rargsort ->
  forall k (d : dataset N) (s : list N) n, (0 < n_instances d <= most)%nat -> (n < most)%nat -> sizes_within n d s ->
  agree (fun r r' => close u (5 + D n + D (n_queries d)) (INR (n_queries d) * (INR n * eta + eta + eta)) (val (fst r)) (fst r') /\
                     Forall2 (fun a b => close u (5 + D n) (INR n * eta + eta + eta) (val a) b) (snd r) (snd r'))
    (mse_eval_by sum argsort k d s) (mse_eval (N:=RE) rargsort k (real_dataset val d) (map val s)).
Proof. intros N val u eta most F sum D [S1 S2] argsort rargsort [A1 A2]. exact (mse_eval_error val u eta most F sum D S1 S2 argsort rargsort A1 A2). Qed.
Print Assumptions C89_mean_squared_error.

(** NDCG of a data set. *)
Theorem C89_ndcg_mean : forall (N : num) (val : N -> R) u eta most, float_like N val u eta most ->
  forall sum D, summation sum D -> forall argsort rargsort, ranks_alike val argsort rargsort ->
  forall r g k (d : dataset N) (s : list N) n, 0 <= val r -> sizes_within n d s -> (n < most)%nat -> (0 < n_queries d <= most)%nat ->
  Forall (fun v => grade (val v)) (ds_y d) -> growth u ^ (6 + D n) * (INR n * eta) <= u * / INR (n + 1) ->
  agree (fun x x' => close u (16 + 2 * D n + D (n_queries d)) (3 * eta + INR n * INR (n + 1) * eta) (val (fst x)) (fst x') /\
                     Forall2 (fun a b => close u (15 + 2 * D n) (2 * eta + INR n * INR (n + 1) * eta) (val a) b) (snd x) (snd x'))
    (eval_by sum (ndcg_by sum argsort r g k) d s)
    (metric_eval (N:=RE) (ndcg_fresh (N:=RE) rargsort (val r) g k) (real_dataset val d) (map val s)).
Proof. exact @ndcg_eval_error. Qed.
Print Assumptions C89_ndcg_mean.

(** What closeness means: a relative error of [2 k u], and the order of two values whose
    distance exceeds their errors. *)
Theorem C89_distance : forall u k e x y, 0 <= u <= / 4 -> 0 <= e -> INR k * u <= / 2 -> close u k e x y ->
  Rabs (x - y) <= 2 * INR k * u * y + 2 * e.
Proof. exact distance. Qed.
Print Assumptions C89_distance.
Theorem C89_order : forall u k e a b x y, 0 <= u <= / 4 -> 0 <= e -> INR k * u <= / 2 -> close u k e a x -> close u k e b y ->
  x + (2 * INR k * u * (x + y) + 4 * e) < y -> a < b.
Proof. exact order_kept. Qed.
Print Assumptions C89_order.

(** float32 is such an arithmetic: relative error 2^-23, underflow 2^-148, counts to 2^24. *)
Theorem C89_float32 : float_like F32M real32 (2 * roundoff) (4 * tiny) (2 ^ 24).
Proof. exact F32_float_like. Qed.
Print Assumptions C89_float32.

(** NDCG of a query in float32: the relative error is 2^-22 times the number of roundings. *)
Theorem C89_float32_ndcg : forall (sum : list F32M -> F32M) D (argsort : list F32M -> list nat) rargsort (r : F32M) g k (y s : list F32M),
  summation sum D -> ranks_alike (N:=F32M) real32 argsort rargsort ->
  length y = length s -> (14 + 2 * D (length y) <= 2 ^ 20)%nat -> (length y < 2 ^ 24)%nat -> 0 <= real32 r -> Forall (fun v => grade (real32 v)) y ->
  agree (fun x e => Rabs (real32 x - e) <= (14 + 2 * INR (D (length y))) * / 2 ^ 22 * e + / 2 ^ 90)
    (ndcg_by (N:=F32M) sum argsort r g k y s) (ndcg_fresh (N:=RE) rargsort (real32 r) g k (map real32 y) (map real32 s)).
Proof. exact float32_ndcg. Qed.
Print Assumptions C89_float32_ndcg.

(** ** Examples *)
(** Exact arithmetic has no error at all. *)
Example C89_example_exact : float_like RE (fun x => x) 0 0 1000.
Proof.
  assert (Z : forall x, rounded_up_to 0 0 x x). { intros x. split; [replace (x - x) with 0 by ring; rewrite Rabs_R0; lra|auto]. }
  constructor; try lra; try reflexivity; intros; try apply Z.
  - unfold nofnat. cbn [nofZ RE RN]. symmetry. apply INR_IZR_INZ.
  - split; [apply Z|]. intros E. cbn [nexp2 RE RN]. rewrite E. apply Rexp2_0.
Qed.

(** NumPy's order of additions for nine numbers: eight accumulators, added in pairs, and the
    number left over. *)
Definition numpy9 {N : num} (l : list N) : N :=
  match l with
  | [a; b; c; d; e; f; g; h; i] =>
      nadd (nadd (nadd (nadd a b) (nadd c d)) (nadd (nadd e f) (nadd g h))) i
  | _ => nsum l
  end.
Example C89_example_numpy : forall (N : num) (a b c d e f g h i : N), sums 4 [a; b; c; d; e; f; g; h; i] (numpy9 [a; b; c; d; e; f; g; h; i]).
Proof.
  intros. cbn [numpy9].
  apply (sums_add 3 [a; b; c; d; e; f; g; h] [i]); [|constructor].
  apply (sums_add 2 [a; b; c; d] [e; f; g; h]); [apply (sums_add 1 [a; b] [c; d])|apply (sums_add 1 [e; f] [g; h])];
    [apply (sums_add 0 [a] [b])|apply (sums_add 0 [c] [d])|apply (sums_add 0 [e] [f])|apply (sums_add 0 [g] [h])]; constructor.
Qed.

(** Three documents, the first one relevant: precision is 1/3, which no float32 is. *)
Definition given_order (A : Type) (l : list A) : list nat := seq 0 (length l).
Definition p_labels : list F32M := [1065353216; 0; 0]%Z.
Definition third32 : Z := 1051372203.
Example C89_example_ranks : ranks_alike (N:=F32M) real32 (given_order Z) (given_order R).
Proof. split; intros l; unfold given_order; [rewrite map_length; reflexivity|apply seq_length]. Qed.
Example C89_example_precision : precision (N:=F32M) (given_order Z) None 1065353216%Z p_labels p_labels = Ok third32.
Proof. vm_compute; reflexivity. Qed.
Lemma one32_is_1 : real32 1065353216 = 1.
Proof. exact (fl_one _ _ _ _ _ F32_float_like). Qed.
Lemma zero32_is_0 : real32 0 = 0.
Proof. exact (fl_zero _ _ _ _ _ F32_float_like). Qed.
Example C89_example_exact_precision : precision (N:=RE) (given_order R) None (real32 1065353216) (map real32 p_labels) (map real32 p_labels) = Ok (1 / 3).
Proof.
  unfold p_labels. cbn [map]. rewrite one32_is_1, zero32_is_0.
  unfold precision, order, given_order. cbn [length seq take mapM]. unfold py_get, zget. cbn -[Rleb count].
  assert (E1 : Rleb 1 1 = true) by (apply Rleb_true; lra). assert (E2 : Rleb 1 0 = false) by (apply Rleb_false; lra).
  unfold count. cbn -[Rleb]. rewrite E1, E2. cbn. reflexivity.
Qed.
Theorem C89_equal_values_refuted : exists (y s : list F32M) a b,
  precision (N:=F32M) (given_order Z) None 1065353216%Z y s = Ok a /\
  precision (N:=RE) (given_order R) None (real32 1065353216) (map real32 y) (map real32 s) = Ok b /\ real32 a <> b.
Proof.
  exists p_labels, p_labels, third32, (1 / 3). split; [exact C89_example_precision|]. split; [exact C89_example_exact_precision|].
  rewrite real32_val. unfold val. intros E. assert (G : IZR (3 * sval third32) = IZR (2 ^ 149)).
  { rewrite mult_IZR, IZR_unit. pose proof unit_pos as P. apply (f_equal (fun x => x * 2 ^ 149)) in E. unfold Rdiv in E. rewrite Rmult_assoc, Rinv_l in E by lra. lra. }
  apply eq_IZR in G. revert G. vm_compute. discriminate.
Qed.
Print Assumptions C89_equal_values_refuted.

(** One rounding is what C89_per_query allows here. *)
Example C89_example_bound : close (2 * roundoff) 1 (4 * tiny) (real32 third32) (1 / 3).
Proof.
  pose proof (C89_per_query F32M real32 (2 * roundoff) (4 * tiny) (2 ^ 24) C89_float32 nsum (fun n => n) (C89_sequential_depth F32M)
    (given_order Z) (given_order R) C89_example_ranks (2 * roundoff) (Precision (N:=F32M) None 1065353216%Z) p_labels p_labels) as H.
  assert (G : agree (fun (a : F32M) (b : R) => close (2 * roundoff) 1 (4 * tiny) (real32 a) b)
    (precision (N:=F32M) (given_order Z) None 1065353216%Z p_labels p_labels)
    (precision (N:=RE) (given_order R) None (real32 1065353216) (map real32 p_labels) (map real32 p_labels))).
  { apply H; [|reflexivity| |exact I].
    - pose proof (fl_u _ _ _ _ _ C89_float32). lra.
    - unfold p_labels. cbn [length]. apply Nat.lt_le_trans with (2 ^ 2)%nat; [cbn; lia|]. apply Nat.pow_le_mono_r; lia. }
  rewrite C89_example_precision, C89_example_exact_precision in G. exact G.
Qed.

(** float32 is accurate enough for ERR with labels 0 and 1, counting errors in units of 2^-16. *)
Example C89_example_suitable : suitable (N:=F32M) real32 (2 * roundoff) (/ 2 ^ 16) (4 * tiny) (fun n => n) (ERR (N:=F32M) None) p_labels.
Proof.
  cbn [suitable]. split.
  - unfold p_labels. repeat constructor; unfold grade; rewrite ?one32_is_1, ?zero32_is_0; lra.
  - intros top E. assert (T : top = 1065353216%Z) by (vm_compute in E; congruence). subst top. rewrite one32_is_1.
    assert (R2 : Rexp2 1 = 2) by (unfold Rexp2; rewrite Rmult_1_l; apply exp_ln; lra). rewrite R2.
    pose proof (fl_u _ _ _ _ _ C89_float32) as U. pose proof roundoff_pos as RP. pose proof tiny_pos as TP.
    assert (RO : 2 * roundoff = / 2 ^ 23).
    { unfold roundoff. replace (2 ^ 24) with (2 * 2 ^ 23) by (rewrite <- tech_pow_Rmult; ring). rewrite Rinv_mult, <- Rmult_assoc, Rinv_r by lra. ring. }
    assert (S1 : 128 * (2 * roundoff) = / 2 ^ 16).
    { rewrite RO. replace (2 ^ 23) with (128 * 2 ^ 16) by (rewrite <- !tech_pow_Rmult; ring). rewrite Rinv_mult, <- Rmult_assoc, Rinv_r by lra. ring. }
    assert (S2 : / 2 ^ 16 <= / 16) by (apply Rinv_le_contravar; lra).
    set (u := 2 * roundoff) in *. replace (INR (length p_labels)) with 3 by (cbn; ring).
    assert (K : INR 10 * u <= / 2) by (replace (INR 10) with 10 by (simpl; ring); lra).
    pose proof (growth_linear u 10 U ltac:(lra)) as G. replace (INR 10) with 10 in * by (simpl; ring).
    assert (G2 : growth u ^ 10 <= 1 + 20 * u).
    { apply Rle_trans with (1 := G). apply (Rmult_le_reg_r (1 - 10 * u)); [lra|]. rewrite Rinv_l by lra. nra. }
    pose proof (qk_le u U 9 10 ltac:(lia)) as G3. pose proof (qk_ge1 u U 9) as G4.
    split; [lra|]. assert (TT : 4 * tiny <= / 2 ^ 40).
    { unfold tiny. replace (2 ^ 150) with (4 * 2 ^ 148) by (rewrite <- !tech_pow_Rmult; ring). rewrite Rinv_mult, <- Rmult_assoc, Rinv_r, Rmult_1_l by lra.
      apply Rinv_le_contravar; [apply pow_lt; lra|]. apply Rle_pow; [lra|lia]. }
    assert (T3 : / 2 ^ 40 * 128 <= u).
    { rewrite RO. replace (2 ^ 40) with (2 ^ 17 * 2 ^ 23) by (rewrite <- pow_add; reflexivity). rewrite Rinv_mult.
      assert (0 < / 2 ^ 23) by (apply Rinv_0_lt_compat, pow_lt; lra). lra. }
    assert (growth u ^ 9 * (4 * tiny) <= 2 * (4 * tiny)) by (apply Rmult_le_compat_r; lra). lra.
Qed.
