(** Proofs: the parts of a split, decimal fractions, the remaining sizes. *)
From Coq Require Import List ZArith Lia Bool QArith Qround Reals Lra Permutation SpecFloat.
From Verif Require Import Base Lists Num M_Text M_Float L_Float M_IEEE S_IEEE S_IEEE2 L_IEEE L_IEEE2 L_IEEE3 L_IEEE4 L_Doubles L_Doubles2
  M_Svmlight M_Dataset S_Dataset L_Dataset2 M_Ensemble M_Effectiveness M_Statistical M_Loaders M_Sizes S_Sizes L_Sizes L_Sizes2.
Import ListNotations.
Local Open Scope Z_scope.

Lemma eqb_zero (v : IEEE64) : neqb (n:=IEEE64) v nzero = true -> real_of v = 0%R.
Proof. destruct v as [s|s| |s m e]; cbn; try reflexivity; destruct s; discriminate. Qed.
Theorem partition {V} nf (X : list (list V)) y ids d (t v : IEEE64) perm :
  built nf X y ids d -> Permutation perm (ds_qids d) -> Z.of_nat (n_queries d) <= 2 ^ 53 ->
  finite_value 53 1024 t -> finite_value 53 1024 v ->
  nltb (n:=IEEE64) t nzero = false -> nltb (n:=IEEE64) none t = false -> nltb (n:=IEEE64) none (nadd (n:=IEEE64) t v) = false -> nltb (n:=IEEE64) v nzero = false ->
  exists tq vq, 0 <= tq <= Z.of_nat (n_queries d) /\ 0 <= vq <= Z.of_nat (n_queries d) /\
    (Rabs (IZR tq - real_of t * INR (n_queries d)) <= / 2 + / 2 ^ 53 * (real_of t * INR (n_queries d)))%R /\
    (Rabs (IZR vq - real_of v * INR (n_queries d)) <= / 2 + / 2 ^ 53 * (real_of v * INR (n_queries d)))%R /\
    (tq + vq < Z.of_nat (n_queries d) -> exists r, split_double t v perm d = Ok r /\
      let '(tr, vl, te) := r in
      Permutation (concat (map rows (split_parts r))) (filter (fun r => 0 <=? fst r) (rows d)) /\
      (forall p, In p (split_parts r) -> whole_part d p) /\
      (Forall (fun q => 0 <= q) ids ->
         Z.of_nat (n_queries tr) = tq /\
         (forall v, vl = Some v -> Z.of_nat (n_queries v) = vq) /\
         Z.of_nat (n_queries te) = Z.of_nat (n_queries d) - tq - vq)) /\
    (tq + vq = Z.of_nat (n_queries d) -> (0 < n_queries d)%nat -> Forall (fun q => 0 <= q) ids ->
      exists tr vl te, split_double t v perm d = Ok (tr, vl, te) /\ rows te = rows d).
Proof.
  intros B P N Ft Fv T0 T1 TV V0. destruct (sizes_real t v (n_queries d) Ft Fv N T0 T1 TV V0) as (tq & vq & E & Bt & Bv & Rt & Rv).
  exists tq, vq. do 4 (split; [assumption|]).
  assert (Z0 : neqb (n:=IEEE64) v nzero = true -> vq = 0).
  { intros H. rewrite (eqb_zero v H), Rmult_0_l, Rmult_0_r, Rminus_0_r, Rplus_0_r in Rv.
    destruct (Z.eq_dec vq 0) as [|NZ]; [assumption|exfalso]. assert (1 <= IZR vq)%R by (apply (IZR_le 1); lia). rewrite Rabs_right in Rv by lra. lra. }
  split.
  - intros L. destruct (stand_ins (Z.of_nat (n_queries d)) tq vq (neqb (n:=IEEE64) v nzero) ltac:(lia) ltac:(lia) ltac:(lia) ltac:(lia) Z0) as (a & b & A0 & B0 & AB & NA & NB & QB).
    destruct (split_sizes_ok a b (n_queries d) tq vq A0 B0 AB NA NB) as (E' & _).
    destruct (C04_lemma nf X y ids d a b perm tq vq B P A0 B0 AB NA NB L) as (r & Er & H). exists r.
    rewrite (split_as t v a b perm d tq vq _ E E' (eq_sym QB)). split; [exact Er|]. destruct r as [[tr vl] te]. destruct H as (_ & H). exact H.
  - intros L Np Pos. destruct (stand_ins (Z.of_nat (n_queries d)) tq vq (neqb (n:=IEEE64) v nzero) ltac:(lia) ltac:(lia) ltac:(lia) ltac:(lia) Z0) as (a & b & A0 & B0 & AB & NA & NB & QB).
    destruct (split_sizes_ok a b (n_queries d) tq vq A0 B0 AB NA NB) as (E' & _).
    rewrite (split_as t v a b perm d tq vq _ E E' (eq_sym QB)).
    exact (C04_leak_lemma nf X y ids d a b perm tq vq B P Pos A0 B0 AB NA NB L).
Qed.

(** ** Decimal fractions *)
Definition rank (c d : Z) : Z := fround 52 (c * unit64) d.
Lemma ratio_rank c d : 0 <= c <= 2 ^ 53 -> 0 < d <= 2 ^ 53 -> ratio c d = decode 52 1024 false (rank c d).
Proof. exact (ratio_decode c d). Qed.
Lemma rank_bounds c d : 0 <= c <= d -> 0 < d -> 0 <= rank c d <= r1.
Proof.
  intros C D. pose proof unit_pos as U. pose proof r1_range. split; [apply fround64_nonneg; nia|].
  apply fround_le; [lia|nia|lia|lia|]. rewrite fval_r1. nia.
Qed.
Lemma rank_error c d : 0 <= c < 2 ^ 53 -> 0 < d <= 2 ^ 53 -> 2 ^ 53 * Z.abs (fval 52 (rank c d) * d - c * unit64) <= c * unit64.
Proof. exact (fun C D => quotient_error c d C D). Qed.
Lemma decimal_size c d n : 0 <= c <= d -> 0 < d -> 0 <= n -> d * n < 2 ^ 50 -> d < 2 ^ 50 -> n < 2 ^ 50 -> no_tie c d n ->
  exists z, round_int (nmul (n:=IEEE64) (ratio c d) (nofZ n)) = Ok z /\ 2 * Z.abs (z * d - c * n) < d.
Proof.
  intros C D N DN D2 N2 NT. pose proof unit_pos as U. rewrite ratio_rank by lia. pose proof (rank_bounds c d C D) as J.
  destruct (size_bounds (rank c d) n J ltac:(lia)) as (z & E & _ & H1 & H2). exists z. split; [exact E|].
  pose proof (rank_error c d ltac:(lia) ltac:(lia)) as H3. pose proof (fval_nonneg 52 ltac:(lia) (rank c d) ltac:(lia)) as T0.
  set (T := fval 52 (rank c d)) in *. set (F := fval 52 (fround 52 (T * n) 1)) in *. clearbody T F. clear E J.
  (* z U d - c n U = (z U - F) d + (F - T n) d + (T d - c U) n *)
  assert (A1 : 2 * Z.abs ((z * unit64 - F) * d) <= unit64 * d) by (rewrite Z.abs_mul, (Z.abs_eq d) by lia; nia).
  assert (A2 : 2 ^ 53 * Z.abs ((F - T * n) * d) <= T * d * n) by (rewrite Z.abs_mul, (Z.abs_eq d) by lia; nia).
  assert (A3 : 2 ^ 53 * Z.abs ((T * d - c * unit64) * n) <= c * n * unit64) by (rewrite Z.abs_mul, (Z.abs_eq n) by lia; nia).
  assert (A4 : T * d * n <= 2 * (c * n * unit64)) by nia.
  assert (CN : c * n <= d * n) by nia.
  assert (S : 2 ^ 53 * (2 * Z.abs ((z * d - c * n) * unit64)) <= 2 ^ 53 * (unit64 * d) + 6 * (c * n * unit64)).
  { replace ((z * d - c * n) * unit64) with ((z * unit64 - F) * d + ((F - T * n) * d + (T * d - c * unit64) * n)) by ring.
    pose proof (Z.abs_triangle ((z * unit64 - F) * d) ((F - T * n) * d + (T * d - c * unit64) * n)).
    pose proof (Z.abs_triangle ((F - T * n) * d) ((T * d - c * unit64) * n)). lia. }
  rewrite Z.abs_mul, (Z.abs_eq unit64) in S by lia.
  assert (S' : 2 ^ 53 * (2 * Z.abs (z * d - c * n)) <= 2 ^ 53 * d + 6 * (c * n)) by nia.
  assert (S2 : 2 * Z.abs (z * d - c * n) <= d).
  { assert (6 * (c * n) < 2 ^ 53) by (change (2 ^ 53) with (8 * 2 ^ 50); lia). nia. }
  destruct (Z.eq_dec (2 * Z.abs (z * d - c * n)) d) as [Q|]; [exfalso|lia]. apply NT.
  destruct (Z.abs_spec (z * d - c * n)) as [(_ & A)|(_ & A)]; rewrite A in Q.
  - replace (2 * c * n) with (d + (z - 1) * (2 * d)) by lia. rewrite Z.mod_add by lia. apply Z.mod_small. lia.
  - replace (2 * c * n) with (d + z * (2 * d)) by lia. rewrite Z.mod_add by lia. apply Z.mod_small. lia.
Qed.
Lemma nearest_of c (p : positive) n z : 2 * Z.abs (z * Zpos p - c * n) < Zpos p -> nearest_even ((c # p) * inject_Z n) z.
Proof.
  intros H. left. split; unfold Qlt; cbn [Qminus Qopp Qplus Qmult Qnum Qden inject_Z]; rewrite ?Pos2Z.inj_mul; nia.
Qed.
Lemma fround_one_above : fround 52 (unit64 + unit64 / 2 ^ 53) 1 = r1. Proof. vm_compute. reflexivity. Qed.
Lemma decimals_accepted c1 d1 c2 d2 : 0 <= c1 -> 0 < d1 < 2 ^ 53 -> 0 <= c2 -> 0 < d2 < 2 ^ 53 -> c1 * d2 + c2 * d1 <= d1 * d2 ->
  nltb (n:=IEEE64) (ratio c1 d1) nzero = false /\ nltb (n:=IEEE64) none (ratio c1 d1) = false /\
  nltb (n:=IEEE64) none (nadd (n:=IEEE64) (ratio c1 d1) (ratio c2 d2)) = false.
Proof.
  intros C1 D1 C2 D2 S. pose proof unit_pos as U. pose proof r1_range as RR. assert (L1 : c1 <= d1) by nia. assert (L2 : c2 <= d2) by nia.
  rewrite !ratio_rank by lia. pose proof (rank_bounds c1 d1 ltac:(lia) ltac:(lia)) as B1. pose proof (rank_bounds c2 d2 ltac:(lia) ltac:(lia)) as B2.
  split; [|split].
  - rewrite zero_decode, ltb_decode by lia. rewrite !Z.min_l by lia. cbn [cond_Zopp]. apply Z.ltb_ge. lia.
  - rewrite one_decode, ltb_decode by lia. rewrite !Z.min_l by lia. cbn [cond_Zopp]. apply Z.ltb_ge. lia.
  - rewrite sum_le_one by (lia || reflexivity). apply Z.ltb_ge. rewrite <- fround_one_above.
    pose proof (fval_nonneg 52 ltac:(lia) (rank c1 d1) ltac:(lia)) as P1. pose proof (fval_nonneg 52 ltac:(lia) (rank c2 d2) ltac:(lia)) as P2.
    apply fround_mono; [lia| |lia]. split; [lia|].
    pose proof (rank_error c1 d1 ltac:(lia) ltac:(lia)) as E1. pose proof (rank_error c2 d2 ltac:(lia) ltac:(lia)) as E2.
    set (T1 := fval 52 (rank c1 d1)) in *. set (T2 := fval 52 (rank c2 d2)) in *. clearbody T1 T2.
    assert (Q : unit64 = 2 ^ 53 * (unit64 / 2 ^ 53)) by (vm_compute; reflexivity). set (u := unit64 / 2 ^ 53) in *. clearbody u.
    assert (X1 : T1 * d1 <= c1 * (unit64 + u)) by lia. assert (X2 : T2 * d2 <= c2 * (unit64 + u)) by lia.
    assert (X : (T1 + T2) * (d1 * d2) <= (unit64 + u) * (d1 * d2)).
    { apply Z.le_trans with ((c1 * d2 + c2 * d1) * (unit64 + u)).
      - assert (T1 * d1 * d2 <= c1 * (unit64 + u) * d2) by (apply Z.mul_le_mono_nonneg_r; lia).
        assert (T2 * d2 * d1 <= c2 * (unit64 + u) * d1) by (apply Z.mul_le_mono_nonneg_r; lia). lia.
      - rewrite (Z.mul_comm (unit64 + u)). apply Z.mul_le_mono_nonneg_r; lia. }
    apply Z.mul_le_mono_pos_r in X; [exact X|nia].
Qed.
Lemma ratio_zero c d : 0 <= c < 2 ^ 53 -> 0 < d < 2 ^ 53 -> neqb (n:=IEEE64) (ratio c d) nzero = (c =? 0).
Proof.
  intros C D. pose proof unit_pos as U. pose proof (rank_error c d C ltac:(lia)) as E. pose proof (quotient_range c d ltac:(lia) ltac:(lia)) as R. fold (rank c d) in R.
  rewrite ratio_rank by lia. rewrite zero_decode. cbn [neqb IEEE64 IEEE]. unfold SFeqb. rewrite (compare_all 52 1024 p52 e1024) by lia.
  change ((1024 - emin (52 + 1) 1024 - 52) * 2 ^ 52) with T64 in *. cbn [cond_Zopp]. 
  destruct (Z.eqb_spec c 0) as [->|NZ].
  - unfold rank. rewrite Z.mul_0_l, fround_zero by lia. reflexivity.
  - assert (rank c d <> 0). { intros Z0. rewrite Z0, fval_0 in E by lia. rewrite Z.mul_0_l in E. nia. }
    fold T64. match goal with |- match ?x with _ => _ end = _ => destruct x eqn:Q end; try reflexivity. apply Z.compare_eq in Q. vm_compute (Z.min 0 _) in Q. lia.
Qed.
Theorem decimals {V} c1 (p1 : positive) c2 (p2 : positive) perm (d : dataset V) :
  0 <= c1 -> 0 <= c2 -> ((c1 # p1) + (c2 # p2) <= 1)%Q ->
  Zpos p1 * Z.of_nat (n_queries d) < 2 ^ 50 -> Zpos p2 * Z.of_nat (n_queries d) < 2 ^ 50 -> Zpos p1 < 2 ^ 50 -> Zpos p2 < 2 ^ 50 ->
  no_tie c1 (Zpos p1) (Z.of_nat (n_queries d)) -> no_tie c2 (Zpos p2) (Z.of_nat (n_queries d)) ->
  split_double (ratio c1 (Zpos p1)) (ratio c2 (Zpos p2)) perm d = split (c1 # p1) (c2 # p2) perm d.
Proof.
  intros C1 C2 S N1 N2 P1 P2 T1 T2. set (n := n_queries d) in *.
  assert (S' : c1 * Zpos p2 + c2 * Zpos p1 <= Zpos p1 * Zpos p2) by (unfold Qle, Qplus in S; cbn [Qnum Qden] in S; rewrite Pos2Z.inj_mul in S; lia).
  assert (L1 : c1 <= Zpos p1) by nia. assert (L2 : c2 <= Zpos p2) by nia. assert (N3 : Z.of_nat n < 2 ^ 50) by nia.
  destruct (decimals_accepted c1 (Zpos p1) c2 (Zpos p2)) as (A1 & A2 & A3); try lia.
  destruct (decimal_size c1 (Zpos p1) (Z.of_nat n)) as (tq & E1 & M1); try (assumption || lia).
  destruct (decimal_size c2 (Zpos p2) (Z.of_nat n)) as (vq & E2 & M2); try (assumption || lia).
  destruct (split_sizes_ok (c1 # p1) (c2 # p2) n tq vq) as (E & _).
  { unfold Qle. cbn [Qnum Qden]. lia. } { unfold Qle. cbn [Qnum Qden]. lia. } { exact S. } { apply nearest_of, M1. } { apply nearest_of, M2. }
  apply (split_as _ _ _ _ _ _ tq vq (Z.of_nat n - tq - vq)); [|exact E|].
  - unfold split_sizes_double. fold n. rewrite A1, A2, A3. cbn [orb]. rewrite E1, E2. reflexivity.
  - rewrite ratio_zero by lia. destruct (Z.eqb_spec c2 0) as [->|NZ]; [reflexivity|]. symmetry. apply Bool.not_true_is_false. intros Q. apply Qeq_bool_iff in Q. unfold Qeq in Q. cbn [Qnum Qden] in Q. lia.
Qed.

(** ** Folds, chunks, columns, nodes *)
Theorem folds n_folds (qids : list Z) : Z.of_nat (length qids) < 2 ^ 53 -> Z.of_nat n_folds <= 2 ^ 53 -> kfold_qids_double n_folds qids = kfold_qids n_folds qids.
Proof.
  intros N K. unfold kfold_qids_double, fold_size. destruct n_folds as [|f]; [reflexivity|].
  rewrite floor_quotient by lia. cbn [bind kfold_qids]. reflexivity.
Qed.
Theorem chunked {N : num} notebook (algo : algorithm N) d k shuffled made : Z.of_nat (n_queries d) < 2 ^ 53 -> 0 <= k <= 2 ^ 53 ->
  kfold_scoring_double notebook algo d k shuffled made = kfold_scoring notebook algo d k shuffled made.
Proof.
  intros L K. unfold kfold_scoring_double, kfold_scoring. destruct (Z.eqb_spec k 0) as [->|]; [reflexivity|].
  unfold chunk_size. rewrite ceil_quotient by lia. reflexivity.
Qed.
Theorem columns {V} (F : fmt V) f : (forall st, parse_file F f = Ok st -> Z.of_nat (length (l_data st)) < 2 ^ 53 /\ Z.of_nat (length (l_labels st)) <= 2 ^ 53) ->
  load_svmlight_double F f = load_svmlight_file F f.
Proof.
  intros H. unfold load_svmlight_double, load_svmlight_file. destruct (parse_file F f) as [st|e]; [|reflexivity]. cbn [bind].
  destruct (H st eq_refl) as (D & L). set (n := length (l_labels st)) in *. set (m := length (l_data st)) in *.
  unfold column_count. destruct (Nat.eqb_spec n 0) as [->|NZ]; [reflexivity|].
  pose proof (trunc_quotient (Z.of_nat m) (Z.of_nat n) ltac:(lia) ltac:(lia)) as Q.
  destruct (true_div (Z.of_nat m) (Z.of_nat n)) as [q|e]; [|discriminate Q]. cbn [bind] in Q |- *. rewrite Q. cbn [bind].
  rewrite <- Nat2Z.inj_div, <- Nat2Z.inj_mul.
  destruct (Nat.eqb_spec (n * (m / n)) m) as [E|E]; destruct (Z.eqb_spec (Z.of_nat (n * (m / n))) (Z.of_nat m)); try lia; cbn [bind negb]; [|reflexivity].
  rewrite Nat2Z.id. reflexivity.
Qed.
Lemma fold_max_ge r : forall x, x <= fold_left Z.max r x.
Proof. induction r as [|y r IH]; intros x; cbn [fold_left]; [lia|]. specialize (IH (Z.max x y)). lia. Qed.
Theorem cat_nodes {N : num} junk (nodes : list (cnode (N:=N))) : Forall (fun c => 0 <= c_tree c) nodes ->
  (forall c, cat_count junk nodes = Ok c -> 0 <= snd c < 2 ^ 53 /\ fst c <= 2 ^ 53) ->
  cat_load_double junk nodes = cat_load junk nodes.
Proof.
  intros G H. unfold cat_load_double, cat_load. destruct (cat_count junk nodes) as [c|e] eqn:E; [|reflexivity]. cbn [bind].
  destruct (H c eq_refl) as (S & L). assert (P : 0 < fst c).
  { unfold cat_count in E. destruct nodes as [|x r]; [discriminate|]. cbn [map] in E.
    destruct (foldM _ _ _) as [l|]; [|discriminate]. cbn [bind] in E. injection E as <-. cbn [fst].
    inversion G as [|? ? X _]; subst. pose proof (fold_max_ge (map c_tree r) (c_tree x)). lia. }
  destruct (initialize (fst c) (snd c)) as [e|]; [|reflexivity]. cbn [bind].
  replace (nodes_per_tree (snd c) (fst c)) with (Ok (snd c / fst c)); [reflexivity|]. symmetry.
  unfold nodes_per_tree. pose proof (trunc_quotient (snd c) (fst c) S ltac:(lia)) as Q. rewrite true_div_decode in Q by lia. cbn [bind] in Q.
  rewrite ratio_decode by lia. exact Q.
Qed.
