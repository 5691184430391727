(** Proofs: scores in IEEE 754 arithmetic. *)
From Coq Require Import List ZArith Lia Bool SpecFloat Reals Lra.
From Verif Require Import Base Num M_Float L_Float L_Float2 M_Ensemble S_Ensemble S_Loaders S_Rounding L_Rounding L_Rounding2 L_Rounding3.
From Verif Require Import S_IEEE S_IEEE2 M_IEEE L_IEEE L_IEEE2 L_IEEE3 L_IEEE4.
Import ListNotations.
Local Open Scope Z_scope.

Lemma to_float32_stands x k : stands x k -> to_float32 x = x.
Proof.
  intros H. destruct (stands_inv x k H) as (s & j & B & -> & _).
  destruct (decode_cases 23 128 p23 e128 s j B) as [(-> & ->)|(m & e & K & D & (S0 & _) & V & _)]; [reflexivity|].
  rewrite D at 1. cbn [to_float32]. change 24 with (23 + 1) at 1. rewrite (round_exact 23 128 p23 e128).
  rewrite Z.max_r, Z.max_l by lia. rewrite <- V. change (2 ^ 0) with 1. rewrite (fround_fval 23 p23 j) by lia. reflexivity.
Qed.
Lemma result_in_range x k : result_of x k -> in_range k -> stands x k.
Proof. unfold result_of, in_range. intros H R. destruct (Z.ltb_spec (Z.abs k) (255 * 2 ^ 23)); [exact H|lia]. Qed.
Lemma stands_zero : stands (S754_zero false) 0.
Proof. exists false, 0. split; [lia|]. split; reflexivity. Qed.

Lemma nth_stands i : forall (row : list IEEE32) (row' : list F32N), Forall2 stands row row' -> stands (nth i row nzero) (nth i row' nzero).
Proof.
  induction i as [|i IH]; intros row row' F; destruct F as [|x k row row' H F]; cbn [nth]; try apply stands_zero; auto.
Qed.
Theorem exit_leaf_ieee (row : list IEEE32) (row' : list F32N) : Forall2 stands row row' -> forall (t : tree Z IEEE32) (t' : tree Z F32N), matching stands t t' ->
  fst (exit_leaf row t) = fst (exit_leaf row' t') /\ stands (snd (exit_leaf row t)) (snd (exit_leaf row' t')).
Proof.
  intros F. induction t as [i v|i f x l IHl r IHr]; intros [j w|j g y l' r'] H; cbn [matching] in H; try contradiction; cbn [exit_leaf].
  - exact H.
  - destruct H as (_ & <- & Hx & Hl & Hr).
    destruct (ieee_comparisons _ _ _ _ (nth_stands (Z.to_nat f) row row' F) Hx) as (-> & _).
    destruct (nleb _ _); auto.
Qed.
Lemma scores_stand (row : list IEEE32) (row' : list F32N) : Forall2 stands row row' -> forall (ws : list IEEE32) (ws' : list F32N), Forall2 stands ws ws' -> forall (ts : list (tree Z IEEE32)) (ts' : list (tree Z F32N)), Forall2 (matching stands) ts ts' ->
  Forall in_range (tree_scores (N:=F32N) ws' ts' row') ->
  Forall2 stands (tree_scores (N:=IEEE32) ws ts row) (tree_scores (N:=F32N) ws' ts' row').
Proof.
  intros F ws ws' W. induction W as [|w w' ws ws' Hw W IH]; intros ts ts' T R; [constructor|].
  destruct T as [|t t' ts ts' Ht T]; [constructor|]. unfold tree_scores in *. cbn [combine map fst snd] in *.
  apply Forall_cons_iff in R. destruct R as (R1 & R2). constructor; [|apply IH; assumption].
  destruct (exit_leaf_ieee row row' F t t' Ht) as (_ & S). pose proof (result_in_range _ _ (ieee_mul _ _ _ _ S Hw) R1) as P.
  cbn [nf32 IEEE32 IEEE F32N] in *. rewrite (to_float32_stands _ _ P). exact P.
Qed.
Lemma sum_stands : forall (ps : list IEEE32) (ps' : list F32N), Forall2 stands ps ps' -> forall y y', stands y y' ->
  (forall k, in_range (fold_left (fun y s => nf32 (nadd (n:=F32N) y s)) (firstn k ps') y')) ->
  stands (fold_left (fun y s => nf32 (nadd (n:=IEEE32) y s)) ps y) (fold_left (fun y s => nf32 (nadd (n:=F32N) y s)) ps' y').
Proof.
  induction 1 as [|p p' ps ps' Hp F IH]; intros y y' Hy R; cbn [fold_left]; [exact Hy|].
  pose proof (R 1%nat) as R1. cbn [firstn fold_left] in R1.
  pose proof (result_in_range _ _ (ieee_add _ _ _ _ Hy Hp) R1) as P. cbn [nf32 IEEE32 IEEE F32N] in *.
  apply IH; [rewrite (to_float32_stands _ _ P); exact P|]. intros k. exact (R (S k)).
Qed.
Theorem score_ieee (ws : list IEEE32) ts row (ws' : list F32N) ts' row' : Forall2 stands row row' -> Forall2 stands ws ws' -> Forall2 (matching stands) ts ts' ->
  Forall in_range (tree_scores (N:=F32N) ws' ts' row') ->
  (forall k, in_range (ensemble_score (N:=F32N) (firstn k ws') (firstn k ts') row')) ->
  stands (ensemble_score (N:=IEEE32) ws ts row) (ensemble_score (N:=F32N) ws' ts' row').
Proof.
  intros F W T R1 R2. unfold ensemble_score. apply sum_stands; [apply scores_stand; assumption|apply stands_zero|].
  intros k. specialize (R2 k). unfold ensemble_score in R2. replace (firstn k (tree_scores ws' ts' row')) with (tree_scores (N:=F32N) (firstn k ws') (firstn k ts') row'); [exact R2|].
  unfold tree_scores. rewrite firstn_map, combine_firstn. reflexivity.
Qed.

(** ** Real values *)
Lemma real_decoded s j : 0 <= j < 255 * 2 ^ 23 -> real_of (bits32 s j) = real32 (if s then - j else j).
Proof.
  intros B. destruct (decode_cases 23 128 p23 e128 s j B) as [(-> & D)|(m & e & K & D & (S0 & _) & V & _)]; unfold bits32; rewrite D.
  - cbn [real_of]. unfold real32, decoded. destruct s; cbn [Z.sgn Z.opp]; rewrite Z.mul_0_l; unfold Rdiv; lra.
  - cbn [real_of]. rewrite real32_val. unfold val.
    assert (E : sval (if s then - j else j) = cond_Zopp s (fval 23 j)) by (rewrite <- sval_cond by lia; destruct s; reflexivity).
    rewrite E, V. change (emin (23 + 1) 128) with (-149) in *. replace (e - -149) with (e + 149) in * by lia.
    assert (P : powerRZ 2 e = (IZR (2 ^ (e + 149)) / 2 ^ 149)%R).
    { rewrite <- (Z2Nat.id (e + 149)) by lia. rewrite <- pow_IZR. change (IZR 2) with 2%R.
      rewrite (pow_powerRZ 2 (Z.to_nat (e + 149))), (pow_powerRZ 2 149). rewrite Z2Nat.id by lia.
      replace e with (e + 149 - Z.of_nat 149) at 1 by lia. unfold Z.sub. rewrite powerRZ_add by lra. rewrite powerRZ_neg'. reflexivity. }
    rewrite P. destruct s; cbn [cond_Zopp]; rewrite ?opp_IZR, mult_IZR; field; apply pow_nonzero; lra.
Qed.
Theorem stands_real x k : stands x k -> real_of x = real32 k.
Proof. intros (s & j & B & -> & ->). apply real_decoded, B. Qed.

(** ** Back to ranks *)
Lemma rank_of_stands x : finite_value 24 128 x -> stands x (bits_of x).
Proof.
  intros H. apply stands_finite in H. destruct H as (k & H). replace (bits_of x) with k; [exact H|].
  destruct (stands_inv x k H) as (s & j & B & -> & ->).
  destruct (decode_cases 23 128 p23 e128 s j B) as [(-> & D)|(m & e & K & D & _ & _ & V)]; rewrite D; cbn [bits_of].
  - destruct s; reflexivity.
  - change (emin (23 + 1) 128) with (-149) in V. rewrite V. reflexivity.
Qed.
Lemma ranks_stand l : Forall (finite_value 24 128) l -> Forall2 stands l (map bits_of l).
Proof. induction 1; constructor; auto using rank_of_stands. Qed.
Lemma tree_ranks (t : tree Z IEEE32) : Forall (finite_value 24 128) (values t) -> matching stands t (convert bits_of bits_of t).
Proof.
  induction t as [i v|i f x l IHl r IHr]; cbn [values convert matching]; intros H.
  - apply Forall_cons_iff in H. destruct H as (H & _). split; [reflexivity|apply rank_of_stands, H].
  - apply Forall_cons_iff in H. destruct H as (Hx & H). apply Forall_app in H. destruct H as (Hl & Hr).
    repeat split; auto using rank_of_stands.
Qed.
Lemma trees_ranks ts : Forall (fun t : tree Z IEEE32 => Forall (finite_value 24 128) (values t)) ts ->
  Forall2 (matching stands) ts (map (convert bits_of bits_of) ts).
Proof. induction 1; constructor; auto using tree_ranks. Qed.

Lemma parts_ieee (row : list IEEE32) (row' : list F32N) : Forall2 stands row row' -> forall (ws : list IEEE32) (ws' : list F32N), Forall2 stands ws ws' -> forall (ts : list (tree Z IEEE32)) (ts' : list (tree Z F32N)), Forall2 (matching stands) ts ts' ->
  ieee_parts ws ts row = exact_parts ws' ts' row'.
Proof.
  intros F ws ws' W. unfold ieee_parts, exact_parts. induction W as [|w w' ws ws' Hw W IH]; intros ts ts' T; [reflexivity|].
  destruct T as [|t t' ts ts' Ht T]; [reflexivity|]. cbn [combine map fst snd]. rewrite (IH ts ts' T). f_equal.
  destruct (exit_leaf_ieee row row' F t t' Ht) as (_ & S). rewrite (stands_real _ _ Hw), (stands_real _ _ S). reflexivity.
Qed.

Local Open Scope R_scope.
Lemma score_near (ws : list IEEE32) (ts : list (tree Z IEEE32)) (row : list IEEE32) : length ws = length ts ->
  Forall (finite_value 24 128) ws -> Forall (fun t => Forall (finite_value 24 128) (values t)) ts -> Forall (finite_value 24 128) row ->
  (1 + roundoff) ^ length ts * ieee_mass ws ts row + INR (length ts) * (1 + roundoff) ^ length ts * tiny < 2 ^ 128 ->
  finite_value 24 128 (ensemble_score ws ts row) /\ Rabs (real_of (ensemble_score ws ts row) - ieee_exact ws ts row) <= ieee_error ws ts row.
Proof.
  intros L HW HT HR B.
  pose proof (ranks_stand row HR) as FR. pose proof (ranks_stand ws HW) as FW. pose proof (trees_ranks ts HT) as FT.
  set (row' := map bits_of row) in *. set (ws' := map bits_of ws) in *. set (ts' := map (convert bits_of bits_of) ts) in *.
  assert (L' : length ws' = length ts') by (unfold ws', ts'; rewrite !map_length; exact L).
  assert (LT : length ts' = length ts) by (unfold ts'; rewrite map_length; reflexivity).
  pose proof (parts_ieee row row' FR ws ws' FW ts ts' FT) as PE.
  unfold ieee_mass in B. rewrite PE in B. fold (mass ws' ts' row') in B. rewrite <- LT in B.
  destruct (C85_overflow_lemma ws' ts' row' L' B) as (R1 & R2).
  pose proof (score_ieee ws ts row ws' ts' row' FR FW FT R1 R2) as S. split.
  - apply stands_finite. eexists. exact S.
  - rewrite (stands_real _ _ S). unfold ieee_exact, ieee_error, ieee_mass. cbv zeta. rewrite PE, <- LT. exact (score_within ws' ts' row' L').
Qed.
Theorem C92_score_lemma (e : ensemble IEEE32) ts ws X : encodes e ts ws -> (forall row, In row X -> covers row ts) ->
  Forall (finite_value 24 128) ws -> Forall (fun t => Forall (finite_value 24 128) (values t)) ts ->
  (forall row, In row X -> Forall (finite_value 24 128) row /\
     let n := length ts in (1 + roundoff) ^ n * ieee_mass ws ts row + INR n * (1 + roundoff) ^ n * tiny < 2 ^ 128) ->
  exists ys, basic_scoring e X = Ok ys /\
    Forall2 (fun row y => finite_value 24 128 y /\ Rabs (real_of y - ieee_exact ws ts row) <= ieee_error ws ts row) X ys.
Proof.
  intros EN C HW HT HX. exists (map (ensemble_score ws ts) X). split; [exact (L_Ensemble.C31_lemma e ts ws X EN C)|].
  destruct EN as (_ & _ & _ & L & _). clear C. induction X as [|row X IH]; constructor; [|apply IH; intros r Hr; apply HX; right; exact Hr].
  destruct (HX row (or_introl eq_refl)) as (HR & B). exact (score_near ws ts row L HW HT HR B).
Qed.
