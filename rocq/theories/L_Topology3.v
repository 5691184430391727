(** Proofs about the topological analysis: the derived shapes. *)
From Coq Require Import List ZArith Bool Lia Permutation Arith Sorted Reals.
From Verif Require Import Base Num Lists M_Dataset M_Ensemble S_Ensemble L_Ensemble L_Loaders M_Topology S_Topology L_Topology L_Topology2.
Import ListNotations.
Local Open Scope Z_scope.

Definition row_of (p : Z * Z) : Z := fst (fst (coordinates p)).
Definition col_of (p : Z * Z) : Z := snd (fst (coordinates p)).

Lemma row_entries_map u d : row_entries (map coordinates u) d = map snd (filter (fun p => row_of p =? d) u).
Proof.
  unfold row_entries. induction u as [|p u IH]; [reflexivity|]. cbn [map filter]. unfold row_of in *.
  destruct (fst (fst (coordinates p)) =? d); cbn [map]; rewrite IH; reflexivity.
Qed.
Lemma coordinates_number p : 0 <= fst p < 2 ^ 64 - 1 ->
  0 <= row_of p /\ 0 <= col_of p < 2 ^ row_of p /\ fst p = 2 ^ row_of p + col_of p - 1.
Proof.
  destruct p as [v k]. cbn [fst]. intros H. unfold row_of, col_of, coordinates. cbn [fst snd].
  rewrite u64_small, msb_u64 by lia.
  pose proof (Z.log2_spec (v + 1) ltac:(lia)) as [L1 L2]. pose proof (Z.log2_nonneg (v + 1)) as L0.
  rewrite Z.pow_succ_r in L2 by lia.
  rewrite (u64_small (2 ^ Z.log2 (v + 1))) by lia. rewrite u64_small by lia. lia.
Qed.
Lemma csum_single u : StronglySorted Z.lt (map fst u) -> forall p, In p u -> csum (fst p) u = snd p.
Proof.
  induction u as [|q u IH]; intros HS p Hp; [destruct Hp|]. cbn [map] in HS. inversion HS as [|? ? HS' HF]; subst.
  rewrite csum_cons. rewrite Forall_forall in HF. destruct Hp as [->|Hp].
  - rewrite Z.eqb_refl. replace (csum (fst p) u) with 0; [lia|]. clear - HF. symmetry.
    induction u as [|q u IH]; [reflexivity|]. rewrite csum_cons. assert (fst p < fst q) by (apply HF; left; reflexivity).
    destruct (Z.eqb_spec (fst q) (fst p)); [lia|]. rewrite IH; [reflexivity|]. intros x Hx. apply HF. right. exact Hx.
  - assert (fst q < fst p) by (apply HF; apply in_map; exact Hp). destruct (Z.eqb_spec (fst q) (fst p)); [lia|].
    rewrite (IH HS' p Hp). lia.
Qed.
Lemma csum_pos_in u v : 0 < csum v u -> exists p, In p u /\ fst p = v.
Proof.
  induction u as [|q u IH]; [unfold csum; cbn; lia|]. rewrite csum_cons. destruct (Z.eqb_spec (fst q) v); intros H.
  - exists q. split; [left; reflexivity|assumption].
  - destruct IH as [p [A B]]; [lia|]. exists p. split; [right|]; assumption.
Qed.
Lemma fold_left_add l a : fold_left Z.add l a = a + zsum l.
Proof. unfold zsum. revert a. induction l as [|x l IH]; intro a; cbn [fold_left fold_right]; [lia|]. rewrite IH. lia. Qed.
Lemma fold_max_ge l : forall a, a <= fold_left Z.max l a /\ forall x, In x l -> x <= fold_left Z.max l a.
Proof.
  induction l as [|y l IH]; intro a; cbn [fold_left]; [split; [lia|intros x []]|].
  destruct (IH (Z.max a y)) as [A B]. split; [lia|]. intros x [<-|Hx]; [lia|]. apply B. exact Hx.
Qed.
Lemma zrange_nth a b i : (i < Z.to_nat (b - a))%nat -> nth_error (zrange a b) i = Some (a + Z.of_nat i).
Proof.
  intros H. unfold zrange. rewrite nth_error_map', nth_error_seq. destruct (Nat.ltb_spec i (Z.to_nat (b - a))); [reflexivity|lia].
Qed.

Section Shape.
Context (incl : bool).
Implicit Type ts : list (tree Z RE).

Lemma fullness_lemma (e : ensemble RE) ts ws order : laid_out e ts ws -> Forall parents_first ts -> Forall (fun t => (height t <= 63)%nat) ts ->
  ts <> [] -> Permutation order (zrange 0 (e_ntrees e)) ->
  exists m hs, topology incl e order = Ok (m, hs) /\
  forall d c0, 0 <= c0 < 2 ^ Z.of_nat d -> 0 < how_many (counted incl d c0) ts ->
  exists used, NoDup used /\ (forall c, In c used <-> 0 <= c < 2 ^ Z.of_nat d /\ 0 < how_many (counted incl d c) ts) /\
    nth_error (fullness_per_level e m) d =
    Some (Some (IZR (zsum (map (fun c => how_many (counted incl d c) ts) used)) / INR (length used) / INR (length ts))%R).
Proof.
  intros HL HP HH Hne Ho. destruct (topology_ok incl e ts ws order HL HP HH Hne Ho) as [u [E [HR [HS HC]]]].
  exists (map coordinates u), (map (fun t => Z.of_nat (height t)) ts). split; [exact E|].
  intros d c0 Hc0 Hpos. set (f := filter (fun p => row_of p =? Z.of_nat d) u).
  assert (Hf : forall p, In p f -> In p u /\ row_of p = Z.of_nat d /\ 0 <= col_of p < 2 ^ Z.of_nat d /\ fst p = 2 ^ Z.of_nat d + col_of p - 1).
  { intros p Hp. apply filter_In in Hp. destruct Hp as [Hp Hr]. apply Z.eqb_eq in Hr. pose proof (coordinates_number p (proj1 (HR p Hp))) as [A [B C]].
    rewrite Hr in *. auto. }
  assert (Hsnd : forall p, In p f -> snd p = how_many (counted incl d (col_of p)) ts).
  { intros p Hp. destruct (Hf p Hp) as [A [B [C D]]]. rewrite <- (HC d (col_of p) C), <- D. symmetry. apply csum_single; assumption. }
  assert (Hin : forall c, 0 <= c < 2 ^ Z.of_nat d -> 0 < how_many (counted incl d c) ts -> exists p, In p f /\ col_of p = c).
  { intros c Hc Hp. rewrite <- (HC d c Hc) in Hp. apply csum_pos_in in Hp. destruct Hp as [p [A B]]. exists p.
    pose proof (coordinates_match (fst p) (snd p) d c (proj1 (HR p A))) as M. rewrite <- surjective_pairing in M.
    fold (row_of p) in M. fold (col_of p) in M.
    rewrite B, Z.eqb_refl in M. destruct (Z.leb_spec 0 c); [|lia]. destruct (Z.ltb_spec c (2 ^ Z.of_nat d)); [|lia]. cbn [andb] in M.
    apply andb_true_iff in M. destruct M as [M1 M2]. apply Z.eqb_eq in M2. split; [|exact M2]. apply filter_In. auto. }
  exists (map col_of f). split; [|split].
  - assert (ND : NoDup (map fst u)).
    { clear - HS. induction HS as [|a l _ IH HF]; constructor; auto. intro C. rewrite Forall_forall in HF. specialize (HF a C). lia. }
    assert (NDu : NoDup u) by (apply NoDup_map_inv in ND; exact ND).
    apply NoDup_map_inj; [|apply NoDup_filter; exact NDu].
    intros p q Hp Hq Hcol. destruct (Hf p Hp) as [A1 [_ [_ D1]]]. destruct (Hf q Hq) as [A2 [_ [_ D2]]].
    assert (F : fst p = fst q) by (rewrite D1, D2, Hcol; reflexivity).
    pose proof (csum_single u HS p A1). pose proof (csum_single u HS q A2). rewrite F in *.
    rewrite (surjective_pairing p), (surjective_pairing q). congruence.
  - intro c. rewrite in_map_iff. split.
    + intros [p [<- Hp]]. destruct (Hf p Hp) as [A [B [C D]]]. split; [exact C|]. rewrite <- (Hsnd p Hp).
      destruct (HR p A). lia.
    + intros [Hc Hp]. destruct (Hin c Hc Hp) as [p [A B]]. exists p. auto.
  - unfold fullness_per_level. rewrite nth_error_map', zrange_nth.
    + cbn [option_map]. rewrite Z.add_0_l, row_entries_map. fold f.
      replace (map (fun c => how_many (counted incl d c) ts) (map col_of f)) with (map snd f)
        by (rewrite map_map; apply map_ext_in; exact Hsnd).
      destruct (Hin c0 Hc0 Hpos) as [p [A _]].
      rewrite map_length, <- (map_length snd f). destruct (map snd f) as [|x l] eqn:El.
      { destruct f; [destruct A|discriminate]. }
      rewrite fold_left_add, Z.add_0_l. f_equal. f_equal. cbn [ndiv nofZ RE RN].
      destruct HL as [[HT _] _]. rewrite HT, <- !INR_IZR_INZ. reflexivity.
    + rewrite Z.sub_0_r. destruct (Hin c0 Hc0 Hpos) as [p [A _]]. destruct (Hf p A) as [A1 [A2 _]].
      unfold n_rows. destruct (fold_max_ge (map (fun p => fst (fst p)) (map coordinates u)) (-1)) as [_ M].
      specialize (M (Z.of_nat d)). rewrite map_map in *. cbn beta in M.
      assert (In (Z.of_nat d) (map (fun x => fst (fst (coordinates x))) u)) as HI by (apply in_map_iff; exists p; auto).
      specialize (M HI). lia.
Qed.

Lemma avg_lemma (e : ensemble RE) ts ws order : laid_out e ts ws -> Forall parents_first ts -> Forall (fun t => (height t <= 63)%nat) ts ->
  ts <> [] -> Permutation order (zrange 0 (e_ntrees e)) ->
  exists m hs, topology incl e order = Ok (m, hs) /\
  NoDup (map fst (avg_tree_shape e m)) /\
  forall d c x, In ((Z.of_nat d, c), x) (avg_tree_shape e m) <->
    0 <= c < 2 ^ Z.of_nat d /\ 0 < how_many (counted incl d c) ts /\ x = (IZR (how_many (counted incl d c) ts) / INR (length ts))%R.
Proof.
  intros HL HP HH Hne Ho. destruct (topology_ok incl e ts ws order HL HP HH Hne Ho) as [u [E [HR [HS HC]]]].
  exists (map coordinates u), (map (fun t => Z.of_nat (height t)) ts). split; [exact E|].
  pose proof HL as [[HT _] _].
  assert (Hp : forall p, In p u -> 0 <= row_of p /\ 0 <= col_of p < 2 ^ row_of p /\ snd p = how_many (counted incl (Z.to_nat (row_of p)) (col_of p)) ts).
  { intros p Hp. destruct (HR p Hp) as [R _]. destruct (coordinates_number p R) as [A [B C]]. split; [exact A|]. split; [exact B|].
    rewrite <- HC by (rewrite Z2Nat.id by exact A; exact B). rewrite Z2Nat.id, <- C by exact A. symmetry. apply csum_single; assumption. }
  split.
  - unfold avg_tree_shape. rewrite !map_map. cbn [fst].
    assert (ND : NoDup (map fst u)).
    { clear - HS. induction HS as [|a l _ IH HF]; constructor; auto. intro C. rewrite Forall_forall in HF. specialize (HF a C). lia. }
    assert (NDu : NoDup u) by (apply NoDup_map_inv in ND; exact ND).
    apply NoDup_map_inj; [|exact NDu]. intros p q Ip Iq F.
    destruct (HR p Ip) as [R1 _]. destruct (HR q Iq) as [R2 _].
    destruct (coordinates_number p R1) as [_ [_ C1]]. destruct (coordinates_number q R2) as [_ [_ C2]].
    assert (F1 : fst p = fst q) by (rewrite C1, C2; unfold row_of, col_of; rewrite F; reflexivity).
    pose proof (csum_single u HS p Ip). pose proof (csum_single u HS q Iq). rewrite F1 in *.
    rewrite (surjective_pairing p), (surjective_pairing q). congruence.
  - intros d c x. unfold avg_tree_shape. rewrite map_map, in_map_iff. cbn [ndiv nofZ RE RN]. rewrite HT, <- INR_IZR_INZ. split.
    + intros [p [F Ip]]. destruct (Hp p Ip) as [A [B C]]. destruct (HR p Ip) as [_ R2].
      assert (F2 : snd (coordinates p) = snd p) by (destruct p; reflexivity). rewrite F2 in F.
      pose proof (f_equal (fun q => fst (fst q)) F) as F5. pose proof (f_equal (fun q => snd (fst q)) F) as F6.
      pose proof (f_equal snd F) as F4. cbn [fst snd] in F4, F5, F6.
      fold (row_of p) in F5. fold (col_of p) in F6. rewrite F5, F6, Nat2Z.id in *. rewrite <- C.
      split; [exact B|]. split; [lia|]. symmetry. exact F4.
    + intros [Hc [Hpos ->]]. rewrite <- (HC d c Hc) in Hpos. apply csum_pos_in in Hpos. destruct Hpos as [p [A B]]. exists p.
      split; [|exact A]. destruct (HR p A) as [R _].
      pose proof (coordinates_match (fst p) (snd p) d c R) as M. rewrite <- surjective_pairing in M.
      rewrite B, Z.eqb_refl in M. destruct (Z.leb_spec 0 c); [|lia]. destruct (Z.ltb_spec c (2 ^ Z.of_nat d)); [|lia]. cbn [andb] in M.
      apply andb_true_iff in M. destruct M as [M1 M2]. apply Z.eqb_eq in M1, M2.
      assert (F2 : snd (coordinates p) = snd p) by (destruct p; reflexivity). rewrite F2.
      destruct (Hp p A) as [_ [_ C]]. unfold row_of, col_of in C. rewrite M1, M2, Nat2Z.id in C.
      rewrite (surjective_pairing (fst (coordinates p))), M1, M2, C. reflexivity.
Qed.
End Shape.
