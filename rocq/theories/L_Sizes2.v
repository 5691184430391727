(** Proofs: the sizes of the parts of a split, in doubles. *)
From Coq Require Import List ZArith Lia Bool QArith Qround Reals Lra SpecFloat.
From Verif Require Import Base Num M_Float L_Float M_IEEE S_IEEE S_IEEE2 L_IEEE L_IEEE2 L_IEEE3 L_IEEE4 L_Doubles L_Doubles2 M_Dataset S_Dataset M_Sizes S_Sizes L_Sizes.
Import ListNotations.
Local Open Scope Z_scope.

Definition r1 : Z := 1023 * 2 ^ 52.
Lemma r1_range : 0 <= r1 < T64. Proof. split; [discriminate|reflexivity]. Qed.
Lemma fval_r1 : fval 52 r1 = unit64. Proof. vm_compute. reflexivity. Qed.
Lemma one_decode : none (n:=IEEE64) = decode 52 1024 false r1. Proof. vm_compute. reflexivity. Qed.
Lemma zero_decode : nzero (n:=IEEE64) = decode 52 1024 false 0. Proof. vm_compute. reflexivity. Qed.

Lemma fround_err64 a : 0 <= a -> 2 ^ 53 * Z.abs (fval 52 (fround 52 a 1) - a) <= a.
Proof.
  intros A. destruct (Z.le_gt_cases (2 ^ 52) a) as [L|L].
  - pose proof (fround_error 52 ltac:(lia) a 1 A ltac:(lia) ltac:(lia)) as E. rewrite Z.mul_1_r in E. exact E.
  - assert (F : fval 52 a = a). { unfold fval. destruct (Z.ltb_spec a (2 ^ (52 + 1))); [reflexivity|]. change (2 ^ (52 + 1)) with (2 * 2 ^ 52) in *. lia. }
    replace (fround 52 a 1) with a; [rewrite F; lia|]. symmetry. rewrite <- F at 1. apply fround_fval; lia.
Qed.
Lemma round_near a : 0 <= a -> let z := Z.sgn a * round_even (Z.abs a) unit64 in 2 * Z.abs (z * unit64 - a) <= unit64 /\ 0 <= z.
Proof.
  intros A. cbv zeta. pose proof unit_pos as U. assert (E : Z.sgn a * round_even (Z.abs a) unit64 = round_even a unit64).
  { destruct (Z.eq_dec a 0) as [->|]; [reflexivity|]. rewrite Z.sgn_pos, Z.abs_eq by lia. lia. }
  rewrite E. pose proof (round_even_near a unit64 U) as R. split; [exact R|nia].
Qed.

(** ** Products *)
Lemma product_decode s j n : 0 <= j < T64 -> 0 <= n <= 2 ^ 53 ->
  nmul (n:=IEEE64) (decode 52 1024 s j) (nofZ n) = decode 52 1024 s (fround 52 (fval 52 j * n) 1).
Proof.
  intros J N. destruct (int_rank n N) as (r & R & F). rewrite (int_decode n r) by (assumption || lia).
  cbn [nmul IEEE64 IEEE]. change 53 with (52 + 1). rewrite (mul_decode 52 1024 p52 e1024) by assumption.
  rewrite xorb_false_r. f_equal. change (2 ^ - emin (52 + 1) 1024) with unit64. rewrite F. apply fround_ratio; [apply unit_pos|lia|ring].
Qed.
Lemma size_bounds j n : 0 <= j <= r1 -> 0 <= n <= 2 ^ 53 ->
  let a := fval 52 j * n in
  exists z, round_int (nmul (n:=IEEE64) (decode 52 1024 false j) (nofZ n)) = Ok z /\ 0 <= z <= n /\
    2 * Z.abs (z * unit64 - fval 52 (fround 52 a 1)) <= unit64 /\ 2 ^ 53 * Z.abs (fval 52 (fround 52 a 1) - a) <= a.
Proof.
  intros J N a. pose proof unit_pos as U. pose proof r1_range as RR. assert (FJ : 0 <= fval 52 j <= unit64).
  { split; [apply fval_nonneg; lia|]. rewrite <- fval_r1. apply fval_le; lia. }
  assert (A : 0 <= a) by (unfold a; nia). rewrite product_decode by lia. fold a.
  destruct (int_rank n N) as (r & R & F).
  assert (Q : 0 <= fround 52 a 1 <= r).
  { split; [apply fround64_nonneg; lia|]. apply fround_le; [lia|exact A|lia|lia|]. rewrite F. unfold a. nia. }
  unfold round_int. rewrite integer_decode by (apply round_scaling || lia). cbn [cond_Zopp]. eexists. split; [reflexivity|].
  destruct (round_near (fval 52 (fround 52 a 1))) as (R1 & R2); [apply fval_nonneg; lia|]. cbv zeta in R1, R2. split; [|split; [exact R1|apply fround_err64, A]].
  split; [exact R2|]. pose proof (fval_le 52 ltac:(lia) (fround 52 a 1) r ltac:(lia) ltac:(lia)) as G. rewrite F in G. nia.
Qed.

(** ** Doubles that pass the checks *)
Lemma ltb_decode s1 k1 s2 k2 : 0 <= k1 -> 0 <= k2 ->
  nltb (n:=IEEE64) (decode 52 1024 s1 k1) (decode 52 1024 s2 k2) = (cond_Zopp s1 (Z.min k1 T64) <? cond_Zopp s2 (Z.min k2 T64)).
Proof.
  intros H1 H2. cbn [nltb IEEE64 IEEE]. unfold SFltb. rewrite (compare_all 52 1024 p52 e1024) by assumption.
  rewrite Z.ltb_compare. destruct (_ ?= _); reflexivity.
Qed.
(** A finite value that is not negative. *)
Lemma nonneg_rank x : finite_value 53 1024 x -> nltb (n:=IEEE64) x nzero = false ->
  exists s j, 0 <= j < T64 /\ x = decode 52 1024 s j /\ cond_Zopp s j = j.
Proof.
  intros F L. apply (finite_value_decode 52 1024 x p52 e1024) in F as (s & j & J & ->). exists s, j.
  assert (J' : 0 <= j < T64) by exact J. split; [exact J'|]. split; [reflexivity|]. rewrite zero_decode, ltb_decode in L by lia.
  rewrite (Z.min_l j), (Z.min_l 0) in L by lia. apply Z.ltb_ge in L. destruct s; cbn [cond_Zopp] in *; lia.
Qed.
Lemma rank_le_one s j : 0 <= j < T64 -> cond_Zopp s j = j -> nltb (n:=IEEE64) none (decode 52 1024 s j) = false -> j <= r1.
Proof.
  intros J C L. pose proof r1_range. rewrite one_decode, ltb_decode in L by lia. rewrite !Z.min_l in L by lia. rewrite C in L. apply Z.ltb_ge in L. exact L.
Qed.
Lemma sum_le_one s1 j1 s2 j2 : 0 <= j1 < T64 -> 0 <= j2 < T64 -> cond_Zopp s1 j1 = j1 -> cond_Zopp s2 j2 = j2 ->
  nltb (n:=IEEE64) none (nadd (n:=IEEE64) (decode 52 1024 s1 j1) (decode 52 1024 s2 j2)) = (r1 <? fround 52 (fval 52 j1 + fval 52 j2) 1).
Proof.
  intros H1 H2 C1 C2. pose proof r1_range as RR.
  assert (E1 : cond_Zopp s1 (fval 52 j1) = fval 52 j1) by (destruct s1; cbn [cond_Zopp] in *; [assert (j1 = 0) as -> by lia; rewrite fval_0 by lia; reflexivity|reflexivity]).
  assert (E2 : cond_Zopp s2 (fval 52 j2) = fval 52 j2) by (destruct s2; cbn [cond_Zopp] in *; [assert (j2 = 0) as -> by lia; rewrite fval_0 by lia; reflexivity|reflexivity]).
  destruct (add_decode 52 1024 p52 e1024 s1 j1 s2 j2 H1 H2) as (A & B). rewrite E1, E2 in A, B.
  pose proof (fval_nonneg 52 ltac:(lia) j1 ltac:(lia)) as P1. pose proof (fval_nonneg 52 ltac:(lia) j2 ltac:(lia)) as P2.
  set (a := fval 52 j1 + fval 52 j2) in *. cbn [nadd IEEE64 IEEE]. change 53 with (52 + 1).
  destruct (Z.eq_dec a 0) as [Z0|NZ].
  - destruct (B Z0) as (z & ->). rewrite Z0, fround_zero by lia. destruct z; vm_compute; reflexivity.
  - rewrite (A NZ). destruct (Z.ltb_spec a 0); [lia|]. rewrite Z.abs_eq by lia. pose proof (fround64_nonneg a 1 ltac:(lia) ltac:(lia)) as Q.
    rewrite one_decode, ltb_decode by lia. cbn [cond_Zopp]. rewrite (Z.min_l r1) by lia.
    destruct (Z.ltb_spec r1 (fround 52 a 1)) as [X|X]; destruct (Z.ltb_spec r1 (Z.min (fround 52 a 1) T64)); lia.
Qed.
Theorem accepted_sizes (t v : IEEE64) n : finite_value 53 1024 t -> finite_value 53 1024 v -> (Z.of_nat n <= 2 ^ 53) ->
  nltb (n:=IEEE64) t nzero = false -> nltb (n:=IEEE64) none t = false -> nltb (n:=IEEE64) none (nadd (n:=IEEE64) t v) = false -> nltb (n:=IEEE64) v nzero = false ->
  exists s1 j1 s2 j2 tq vq, t = decode 52 1024 s1 j1 /\ v = decode 52 1024 s2 j2 /\ cond_Zopp s1 j1 = j1 /\ cond_Zopp s2 j2 = j2 /\ 0 <= j1 <= r1 /\ 0 <= j2 <= r1 /\
    split_sizes_double t v n = Ok (tq, vq, Z.of_nat n - tq - vq) /\
    round_int (nmul (n:=IEEE64) (decode 52 1024 false j1) (nofZ (Z.of_nat n))) = Ok tq /\
    round_int (nmul (n:=IEEE64) (decode 52 1024 false j2) (nofZ (Z.of_nat n))) = Ok vq.
Proof.
  intros Ft Fv N T0 T1 TV V0. destruct (nonneg_rank t Ft T0) as (s1 & j1 & J1 & E1 & C1). destruct (nonneg_rank v Fv V0) as (s2 & j2 & J2 & E2 & C2).
  pose proof TV as TV'. rewrite E1, E2, sum_le_one in TV' by assumption. apply Z.ltb_ge in TV'.
  pose proof (fval_nonneg 52 ltac:(lia) j1 ltac:(lia)) as P1. pose proof (fval_nonneg 52 ltac:(lia) j2 ltac:(lia)) as P2.
  assert (L1 : j1 <= r1). { pose proof (fround_ge 52 ltac:(lia) (fval 52 j1 + fval 52 j2) 1 j1 ltac:(lia) ltac:(lia) ltac:(lia) ltac:(lia)). lia. }
  assert (L2 : j2 <= r1). { pose proof (fround_ge 52 ltac:(lia) (fval 52 j1 + fval 52 j2) 1 j2 ltac:(lia) ltac:(lia) ltac:(lia) ltac:(lia)). lia. }
  destruct (size_bounds j1 (Z.of_nat n) ltac:(lia) ltac:(lia)) as (tq & ET & _). destruct (size_bounds j2 (Z.of_nat n) ltac:(lia) ltac:(lia)) as (vq & EV & _).
  exists s1, j1, s2, j2, tq, vq. do 6 (split; [assumption || lia|]). split; [|split; assumption].
  unfold split_sizes_double. rewrite T0, T1, TV. cbn [orb].
  assert (Z1 : forall s j, cond_Zopp s j = j -> 0 <= j < T64 -> forall z, round_int (nmul (n:=IEEE64) (decode 52 1024 false j) (nofZ (Z.of_nat n))) = Ok z -> round_int (nmul (n:=IEEE64) (decode 52 1024 s j) (nofZ (Z.of_nat n))) = Ok z).
  { intros s j C J z E. destruct s; [|exact E]. cbn [cond_Zopp] in C. assert (j = 0) as -> by lia. rewrite product_decode in E |- * by lia.
    rewrite fval_0, Z.mul_0_l, fround_zero, (decode_0 52 1024) in * by lia. exact E. }
  rewrite E1, E2, (Z1 s1 j1 C1 J1 tq ET), (Z1 s2 j2 C2 J2 vq EV). reflexivity.
Qed.

Local Open Scope R_scope.
Lemma unit_weight : powerRZ 2 (-1074) = / IZR unit64.
Proof.
  cbn [powerRZ]. replace (Pos.to_nat 1074) with 1074%nat by reflexivity. f_equal. rewrite pow_IZR. reflexivity.
Qed.
Lemma real_nonneg s j : (0 <= j < T64)%Z -> cond_Zopp s j = j -> real_of (decode 52 1024 s j) = IZR (fval 52 j) / IZR unit64.
Proof.
  intros J C. rewrite (real_of_decode 52 1024) by (lia || exact J). change (SpecFloat.emin (52 + 1) 1024) with (-1074)%Z. rewrite unit_weight.
  destruct s; cbn [sign]; unfold Rdiv; [|ring]. cbn [cond_Zopp] in C. assert (j = 0%Z) as -> by lia. rewrite fval_0 by lia. cbn [IZR]. ring.
Qed.
Lemma size_real s j n z : (0 <= j <= r1)%Z -> cond_Zopp s j = j -> (0 <= n <= 2 ^ 53)%Z ->
  round_int (nmul (n:=IEEE64) (decode 52 1024 false j) (nofZ n)) = Ok z ->
  (0 <= z <= n)%Z /\ Rabs (IZR z - real_of (decode 52 1024 s j) * IZR n) <= / 2 + / 2 ^ 53 * (real_of (decode 52 1024 s j) * IZR n).
Proof.
  intros J C N E. destruct (size_bounds j n J N) as (z' & E' & B & H1 & H2). rewrite E in E'. injection E' as <-. split; [exact B|].
  pose proof r1_range. rewrite real_nonneg by (lia || exact C). set (a := (fval 52 j * n)%Z) in *. set (F := fval 52 (fround 52 a 1)) in *.
  assert (U : 0 < IZR unit64) by (apply (IZR_lt 0), unit_pos).
  apply IZR_le in H1, H2. rewrite !mult_IZR, abs_IZR, minus_IZR in H1, H2. rewrite mult_IZR in H1.
  assert (P : IZR (2 ^ 53) = 2 ^ 53) by (rewrite (pow_IZR 2 53); reflexivity). rewrite P in H2. assert (PP : 0 < 2 ^ 53) by (apply pow_lt; lra).
  assert (H2' : Rabs (IZR F - IZR a) <= / 2 ^ 53 * IZR a).
  { apply Rmult_le_reg_l with (2 ^ 53); [exact PP|]. rewrite <- Rmult_assoc, Rinv_r by lra. lra. }
  assert (A : IZR (fval 52 j) / IZR unit64 * IZR n = IZR a / IZR unit64) by (unfold a; rewrite mult_IZR; unfold Rdiv; ring). rewrite A.
  assert (T : Rabs (IZR z * IZR unit64 - IZR a) <= IZR unit64 / 2 + / 2 ^ 53 * IZR a).
  { replace (IZR z * IZR unit64 - IZR a) with ((IZR z * IZR unit64 - IZR F) + (IZR F - IZR a)) by ring. eapply Rle_trans; [apply Rabs_triang|]. lra. }
  replace (IZR z - IZR a / IZR unit64) with ((IZR z * IZR unit64 - IZR a) * / IZR unit64) by (field; lra).
  rewrite Rabs_mult, (Rabs_right (/ IZR unit64)) by (left; apply Rinv_0_lt_compat, U).
  replace (/ 2 + / 2 ^ 53 * (IZR a / IZR unit64)) with ((IZR unit64 / 2 + / 2 ^ 53 * IZR a) * / IZR unit64) by (field; lra).
  apply Rmult_le_compat_r; [left; apply Rinv_0_lt_compat, U|exact T].
Qed.
Theorem sizes_real (t v : IEEE64) n : finite_value 53 1024 t -> finite_value 53 1024 v -> (Z.of_nat n <= 2 ^ 53)%Z ->
  nltb (n:=IEEE64) t nzero = false -> nltb (n:=IEEE64) none t = false -> nltb (n:=IEEE64) none (nadd (n:=IEEE64) t v) = false -> nltb (n:=IEEE64) v nzero = false ->
  exists tq vq, split_sizes_double t v n = Ok (tq, vq, Z.of_nat n - tq - vq)%Z /\
    (0 <= tq <= Z.of_nat n)%Z /\ (0 <= vq <= Z.of_nat n)%Z /\
    Rabs (IZR tq - real_of t * INR n) <= / 2 + / 2 ^ 53 * (real_of t * INR n) /\
    Rabs (IZR vq - real_of v * INR n) <= / 2 + / 2 ^ 53 * (real_of v * INR n).
Proof.
  intros Ft Fv N T0 T1 TV V0. destruct (accepted_sizes t v n Ft Fv N T0 T1 TV V0) as (s1 & j1 & s2 & j2 & tq & vq & -> & -> & C1 & C2 & J1 & J2 & E & ET & EV).
  exists tq, vq. split; [exact E|]. rewrite INR_IZR_INZ. destruct (size_real s1 j1 (Z.of_nat n) tq J1 C1 ltac:(lia) ET) as (B1 & R1). destruct (size_real s2 j2 (Z.of_nat n) vq J2 C2 ltac:(lia) EV) as (B2 & R2).
  auto.
Qed.

Local Open Scope Z_scope.
(** ** The parts *)
Lemma split_as {V} (t v : IEEE64) (a b : Q) perm (d : dataset V) tq vq e : split_sizes_double t v (n_queries d) = Ok (tq, vq, e) ->
  split_sizes a b (n_queries d) = Ok (tq, vq, e) -> neqb (n:=IEEE64) v nzero = Qeq_bool b 0 -> split_double t v perm d = split a b perm d.
Proof. intros E1 E2 Z. unfold split_double, split. rewrite E1, E2, Z. reflexivity. Qed.
Lemma nearest_exact a z : (a == inject_Z z)%Q -> nearest_even a z.
Proof. intros E. left. rewrite E. split; ring_simplify (inject_Z z - inject_Z z)%Q; reflexivity. Qed.
Lemma stand_ins (n tq vq : Z) zero : 0 <= tq -> 0 <= vq -> tq + vq <= n -> 0 < n -> (zero = true -> vq = 0) ->
  exists a b : Q, (0 <= a)%Q /\ (0 <= b)%Q /\ (a + b <= 1)%Q /\ nearest_even (a * inject_Z n) tq /\ nearest_even (b * inject_Z n) vq /\ Qeq_bool b 0 = zero.
Proof.
  intros T V S N Z0. set (p := Z.to_pos n). assert (P : Zpos p = n) by (unfold p; apply Z2Pos.id, N).
  assert (X : forall z, ((z # p) * inject_Z n == inject_Z z)%Q). { intros z. unfold Qeq. cbn [Qmult Qnum Qden inject_Z]. rewrite Pos2Z.inj_mul, P. lia. }
  assert (G : (zero = true \/ 0 < vq) \/ zero = false /\ vq = 0) by (destruct zero; auto; lia).
  destruct G as [G|(-> & ->)].
  - exists (tq # p), (vq # p). repeat split; try (apply nearest_exact, X).
    + unfold Qle. cbn [Qnum Qden]. lia.
    + unfold Qle. cbn [Qnum Qden]. lia.
    + unfold Qle, Qplus. cbn [Qnum Qden]. rewrite Pos2Z.inj_mul. nia.
    + destruct (Qeq_bool (vq # p) 0) eqn:E.
      * apply Qeq_bool_iff in E. unfold Qeq in E. cbn [Qnum Qden] in E. destruct G as [->|G]; [reflexivity|lia].
      * apply Qeq_bool_neq in E. destruct zero; [|reflexivity]. exfalso. apply E. rewrite (Z0 eq_refl). reflexivity.
  - destruct (Z.eq_dec tq n) as [->|NE].
    + exists ((4 * n - 1) # (4 * p)), (1 # (4 * p)). repeat split; try (unfold Qle; cbn [Qnum Qden]; lia).
      * unfold Qle, Qplus. cbn [Qnum Qden]. rewrite !Pos2Z.inj_mul, P. nia.
      * left. split; unfold Qlt; cbn [Qminus Qopp Qplus Qmult Qnum Qden inject_Z]; rewrite ?Pos2Z.inj_mul, ?P; nia.
      * left. split; unfold Qlt; cbn [Qminus Qopp Qplus Qmult Qnum Qden inject_Z]; rewrite ?Pos2Z.inj_mul, ?P; nia.
    + exists (tq # p), (1 # (4 * p)). repeat split; try (unfold Qle; cbn [Qnum Qden]; lia).
      * unfold Qle, Qplus. cbn [Qnum Qden]. rewrite !Pos2Z.inj_mul, P. nia.
      * apply nearest_exact, X.
      * left. split; unfold Qlt; cbn [Qminus Qopp Qplus Qmult Qnum Qden inject_Z]; rewrite ?Pos2Z.inj_mul, ?P; nia.
Qed.
