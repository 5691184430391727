(** Proofs about the topological analysis: all the trees, and the counts. *)
From Coq Require Import List ZArith Bool Lia Permutation Arith Sorted.
From Verif Require Import Base Num Lists M_Dataset M_Ensemble S_Ensemble L_Ensemble L_Loaders M_Topology S_Topology L_Topology.
Import ListNotations.
Local Open Scope Z_scope.

Section All.
Context {N : num} (incl : bool).
Implicit Type t : tree Z N.
Implicit Type ts : list (tree Z N).

Definition off ts (j : nat) : Z := Z.of_nat (total_size (firstn j ts)).
Lemma off_0 ts : off ts 0 = 0.
Proof. reflexivity. Qed.
Lemma off_cons t ts j : off (t :: ts) (S j) = Z.of_nat (size t) + off ts j.
Proof. unfold off, total_size. cbn [firstn map]. change (list_sum (size t :: map size (firstn j ts))) with (size t + list_sum (map size (firstn j ts)))%nat. lia. Qed.
Lemma off_S ts : forall j t, nth_error ts j = Some t -> off ts (S j) = off ts j + Z.of_nat (size t).
Proof.
  induction ts as [|u ts IH]; intros [|j] t H; cbn [nth_error] in H; try discriminate.
  - injection H as ->. rewrite off_cons, !off_0. lia.
  - rewrite !off_cons, (IH j t H). lia.
Qed.
Lemma off_mono ts i j : (i <= j)%nat -> off ts i <= off ts j.
Proof.
  revert i j. induction ts as [|u ts IH]; intros i j H.
  - unfold off. rewrite !firstn_nil. lia.
  - destruct i, j; try lia; rewrite ?off_cons; [|specialize (IH i j ltac:(lia)); lia].
    rewrite off_0. specialize (IH 0%nat j ltac:(lia)). rewrite off_0 in IH. lia.
Qed.
Lemma off_all ts j : (length ts <= j)%nat -> off ts j = Z.of_nat (total_size ts).
Proof. intros H. unfold off. rewrite firstn_all2 by exact H. reflexivity. Qed.
Lemma consecutive_nth ts : forall a j t, consecutive a ts -> nth_error ts j = Some t ->
  mark t = a + off ts j /\ Permutation (marks t) (zrange (a + off ts j) (a + off ts j + Z.of_nat (size t))).
Proof.
  induction ts as [|u ts IH]; intros a [|j] t H E; cbn [nth_error] in E; try discriminate; cbn [consecutive] in H; destruct H as [H1 [H2 H3]].
  - injection E as ->. rewrite off_0, Z.add_0_r. auto.
  - rewrite off_cons. destruct (IH _ j t H3 E) as [A B]. rewrite Z.add_assoc. auto.
Qed.
Lemma consecutive_marks ts : forall a, consecutive a ts ->
  Permutation (flat_map marks ts) (zrange a (a + Z.of_nat (total_size ts))).
Proof.
  induction ts as [|u ts IH]; intros a H; cbn [flat_map].
  - unfold total_size. cbn. rewrite Z.add_0_r. unfold zrange. rewrite Z.sub_diag. constructor.
  - cbn [consecutive] in H. destruct H as [H1 [H2 H3]]. unfold total_size in *. cbn [map].
    change (list_sum (size u :: map size ts)) with (size u + list_sum (map size ts))%nat.
    rewrite <- (zrange_app a (a + Z.of_nat (size u))) by lia. apply Permutation_app; [exact H2|].
    specialize (IH _ H3). rewrite Nat2Z.inj_add, Z.add_assoc. exact IH.
Qed.

Lemma last_node_ok (e : ensemble N) ts ws j t : laid_out e ts ws -> nth_error ts j = Some t ->
  last_node e (Z.of_nat j) = Ok (off ts j + Z.of_nat (size t)).
Proof.
  intros [[HT [HR _]] [HC [HN _]]] E. unfold last_node. rewrite HT.
  pose proof (nth_error_Some ts j) as Hj. rewrite E in Hj. assert (j < length ts)%nat by (apply Hj; discriminate).
  destruct (Z.ltb_spec (Z.of_nat j) (Z.of_nat (length ts) - 1)).
  - destruct (nth_error ts (S j)) as [u|] eqn:Eu; [|apply nth_error_None in Eu; lia].
    unfold mem_get. replace (Z.of_nat j + 1) with (Z.of_nat (S j)) by lia. rewrite zget_nth, HR, nth_error_map', Eu. cbn [option_map of_option].
    destruct (consecutive_nth ts 0 (S j) u HC Eu) as [M _]. rewrite M, (off_S ts j t E). reflexivity.
  - rewrite HN, <- (off_S ts j t E). f_equal. symmetry. apply off_all. lia.
Qed.

Lemma map_zget_ext (m m' : list Z) l : (forall j, In j l -> zget m' j = zget m j) -> map (zget m') l = map (zget m) l.
Proof. intros H. apply map_ext_in. exact H. Qed.

Lemma run_ok (e : ensemble N) ts ws : laid_out e ts ws -> Forall parents_first ts -> Forall (fun t => (height t <= 63)%nat) ts ->
  forall order, NoDup order -> (forall j, In j order -> 0 <= j < Z.of_nat (length ts)) ->
  forall mem hs, length mem = total_size ts -> length hs = length ts ->
  (forall j t, In (Z.of_nat j) order -> nth_error ts j = Some t -> zget mem (mark t) = Some 0) ->
  exists mem' hs',
    foldM (fun s (q : Z) => do last <- last_node e q;
                      do r <- node_indices incl e q last (fst s);
                      do h <- mem_set (snd s) q (u32 (snd r));
                      Ok (fst r, h)) order (mem, hs) = Ok (mem', hs') /\
    length mem' = total_size ts /\ length hs' = length ts /\
    forall j t, nth_error ts j = Some t ->
      (In (Z.of_nat j) order -> map (zget mem') (marks t) = map Some (heaps incl 0 t) /\ zget hs' (Z.of_nat j) = Some (Z.of_nat (height t))) /\
      (~ In (Z.of_nat j) order -> map (zget mem') (marks t) = map (zget mem) (marks t) /\ zget hs' (Z.of_nat j) = zget hs (Z.of_nat j)).
Proof.
  intros HL HP HH. induction order as [|o order IH]; intros Hnd Hr mem hs Lm Lh Hz.
  - exists mem, hs. cbn [foldM]. split; [reflexivity|]. split; [exact Lm|]. split; [exact Lh|].
    intros j t _. split; [intros []|]. intros _. split; reflexivity.
  - inversion Hnd as [|? ? Hno Hnd']; subst.
    pose proof (Hr o (or_introl eq_refl)) as Ho.
    destruct (nth_error ts (Z.to_nat o)) as [t|] eqn:Et; [|apply nth_error_None in Et; lia].
    remember (Z.to_nat o) as k eqn:Ek. assert (Eo : o = Z.of_nat k) by lia. clear Ek. subst o.
    pose proof HL as [[HT [HR [_ [_ HRep]]]] [HC _]].
    destruct (consecutive_nth ts 0 k t HC Et) as [Mt Pt]. rewrite Z.add_0_l in Mt, Pt.
    rewrite Forall_forall in HP, HH, HRep. pose proof (nth_error_In _ _ Et) as HIn.
    assert (Hoff : off ts k + Z.of_nat (size t) <= Z.of_nat (length mem)).
    { rewrite <- (off_S ts k t Et), Lm, <- (off_all ts (length ts) (le_n _)). apply off_mono. lia. }
    destruct (node_indices_ok incl e t (Z.of_nat k) (off ts k) mem (HRep t HIn) (HP t HIn) (HH t HIn)) as [m1 [E1 [V1 [F1 L1]]]].
    { rewrite zget_nth, HR, nth_error_map', Et. cbn [option_map]. congruence. }
    { exact Mt. } { exact Pt. } { unfold off. lia. } { exact Hoff. }
    { rewrite <- Mt. apply (Hz k); [left; reflexivity|exact Et]. }
    destruct (mem_set_zget hs (Z.of_nat k) (u32 (Z.of_nat (height t))) ltac:(lia)) as [h1 [E2 [L2 G2]]].
    assert (Hmark : forall j u, nth_error ts j = Some u -> j <> k -> forall x, In x (marks u) -> ~ In x (marks t)).
    { intros j u Eu Hjk x Hx Hx'. destruct (consecutive_nth ts 0 j u HC Eu) as [_ Pu]. rewrite Z.add_0_l in Pu.
      apply (Permutation_in _ Pu) in Hx. apply (Permutation_in _ Pt) in Hx'. rewrite in_zrange in Hx, Hx'.
      rewrite <- (off_S ts j u Eu) in Hx. rewrite <- (off_S ts k t Et) in Hx'.
      destruct (Nat.lt_ge_cases j k) as [H|H].
      - pose proof (off_mono ts (S j) k H). lia.
      - pose proof (off_mono ts (S k) j ltac:(lia)). lia. }
    destruct (IH Hnd' (fun j Hj => Hr j (or_intror Hj)) m1 h1 ltac:(congruence) ltac:(congruence)) as [m2 [h2 [E3 [L3 [L4 G3]]]]].
    { intros j u Hj Eu. assert (j <> k) by (intros ->; exact (Hno Hj)).
      rewrite F1; [apply (Hz j); [right; exact Hj|exact Eu]|]. apply (Hmark j u Eu); [assumption|apply mark_in_marks]. }
    exists m2, h2. cbn [foldM]. rewrite (last_node_ok e ts ws k t HL Et). cbn [bind fst]. rewrite E1. cbn [bind fst snd]. rewrite E2. cbn [bind].
    split; [exact E3|]. split; [exact L3|]. split; [exact L4|].
    intros j u Eu. destruct (G3 j u Eu) as [G4 G5]. split.
    + intros [Hj|Hj]; [|exact (G4 Hj)]. assert (j = k) by lia. subst j. rewrite Et in Eu. injection Eu as <-.
      destruct (G5 Hno) as [A B]. rewrite A, B, V1, G2, Z.eqb_refl. split; [reflexivity|].
      f_equal. unfold u32, wrap_u. apply Z.mod_small. pose proof (HH t HIn). assert (63 < 2 ^ 32) by reflexivity. lia.
    + intros Hj. destruct (G5 (fun C => Hj (or_intror C))) as [A B]. assert (j <> k) by (intros ->; apply Hj; left; reflexivity).
      rewrite A, B, G2. destruct (Z.eqb_spec (Z.of_nat k) (Z.of_nat j)); [lia|]. split; [|reflexivity].
      apply map_zget_ext. intros x Hx. apply F1. apply (Hmark j u Eu); assumption.
Qed.

Lemma map_some_perm (l l' : list Z) : Permutation (map Some l) (map Some l') -> Permutation l l'.
Proof.
  intros H. apply (Permutation_map (fun o => match o with Some x => x | None => 0 end)) in H.
  rewrite !map_map, !map_id in H. exact H.
Qed.
Lemma zget_all (m : list Z) : map (zget m) (zrange 0 (Z.of_nat (length m))) = map Some m.
Proof.
  rewrite zrange_seq, map_map. apply nth_error_ext'. intro i. rewrite !nth_error_map', nth_error_seq.
  destruct (Nat.ltb_spec i (length m)) as [H|H].
  - cbn [option_map]. rewrite Nat.add_0_l, zget_nth. destruct (nth_error m i) eqn:E; [reflexivity|]. apply nth_error_None in E. lia.
  - cbn [option_map]. replace (nth_error m i) with (@None Z); [reflexivity|]. symmetry. apply nth_error_None. exact H.
Qed.

Lemma all_indices_ok (e : ensemble N) ts ws order : laid_out e ts ws -> Forall parents_first ts -> Forall (fun t => (height t <= 63)%nat) ts ->
  Permutation order (zrange 0 (e_ntrees e)) ->
  exists mem, all_indices incl e order = Ok (mem, map (fun t => Z.of_nat (height t)) ts) /\
    Permutation mem (flat_map (heaps incl 0) ts).
Proof.
  intros HL HP HH Ho. pose proof HL as [[HT [HR _]] [HC [HN [HLl _]]]]. unfold all_indices. rewrite HN, HT in *. rewrite !Nat2Z.id.
  destruct (run_ok e ts ws HL HP HH order) with (mem := repeat 0 (total_size ts)) (hs := repeat 0 (length ts)) as [m [h [E [Lm [Lh G]]]]].
  - apply (Permutation_NoDup (Permutation_sym Ho)). apply zrange_nodup.
  - intros j Hj. apply in_zrange. apply (Permutation_in _ Ho). exact Hj.
  - apply repeat_length.
  - apply repeat_length.
  - intros j t _ Et. apply zget_repeat. destruct HL as [[_ [_ [_ [_ HRep]]]] _]. rewrite Forall_forall in HRep.
    pose proof (rep_range e t (HRep t (nth_error_In _ _ Et))). lia.
  - exists m. rewrite E.
    assert (Hall : forall j t, nth_error ts j = Some t -> In (Z.of_nat j) order).
    { intros j t Et. apply (Permutation_in _ (Permutation_sym Ho)). apply in_zrange.
      assert (j < length ts)%nat by (apply nth_error_Some; congruence). lia. }
    split.
    + f_equal. f_equal. apply nth_error_ext'. intro j. rewrite nth_error_map'. destruct (nth_error ts j) as [t|] eqn:Et; cbn [option_map].
      * destruct (G j t Et) as [G1 _]. destruct (G1 (Hall j t Et)) as [_ G2]. rewrite zget_nth in G2. exact G2.
      * apply nth_error_None. apply nth_error_None in Et. lia.
    + apply map_some_perm. rewrite <- zget_all, Lm.
      transitivity (map (zget m) (flat_map marks ts)).
      { apply Permutation_map. apply Permutation_sym. apply (consecutive_marks ts 0 HC). }
      assert (X : forall us, (forall t, In t us -> map (zget m) (marks t) = map Some (heaps incl 0 t)) ->
                map (zget m) (flat_map marks us) = map Some (flat_map (heaps incl 0) us)).
      { induction us as [|u us IH]; intros H; cbn [flat_map]; [reflexivity|].
        rewrite !map_app, (H u (or_introl eq_refl)), IH; [reflexivity|]. intros t Ht. apply H. right. exact Ht. }
      rewrite X; [reflexivity|]. intros t Ht. apply In_nth_error in Ht. destruct Ht as [j Et].
      destruct (G j t Et) as [G1 _]. apply G1. apply (Hall j t Et).
Qed.
End All.

(** ** Counting *)
Definition csum (v : Z) (u : list (Z * Z)) : Z := fold_right Z.add 0 (map snd (filter (fun p => fst p =? v) u)).
Definition cnt (v : Z) (l : list Z) : Z := Z.of_nat (count_occ Z.eq_dec l v).
Lemma csum_cons v p u : csum v (p :: u) = (if fst p =? v then snd p else 0) + csum v u.
Proof. unfold csum. cbn [filter]. destruct (fst p =? v); reflexivity. Qed.
Lemma cnt_cons v x l : cnt v (x :: l) = (if x =? v then 1 else 0) + cnt v l.
Proof. unfold cnt. cbn [count_occ]. destruct (Z.eq_dec x v), (Z.eqb_spec x v); try lia; contradiction. Qed.
Lemma cnt_app v l l' : cnt v (l ++ l') = cnt v l + cnt v l'.
Proof. unfold cnt. rewrite count_occ_app. lia. Qed.
Lemma cnt_perm v l l' : Permutation l l' -> cnt v l = cnt v l'.
Proof. intros H. unfold cnt. f_equal. apply (Permutation_count_occ Z.eq_dec); exact H. Qed.
Lemma cnt_none v l : ~ In v l -> cnt v l = 0.
Proof. intros H. unfold cnt. apply (count_occ_not_In Z.eq_dec) in H. rewrite H. reflexivity. Qed.

Lemma run_length_csum v l : csum v (run_length l) = cnt v l.
Proof.
  induction l as [|x l IH]; [reflexivity|]. rewrite cnt_cons, <- IH. cbn [run_length].
  destruct (run_length l) as [|[y c] q]; [rewrite csum_cons; cbn [fst snd]; reflexivity|].
  destruct (Z.eqb_spec x y) as [->|]; rewrite !csum_cons; cbn [fst snd]; destruct (y =? v); lia.
Qed.
Lemma run_length_fst l x c : In (x, c) (run_length l) -> In x l.
Proof.
  revert x c. induction l as [|a l IH]; intros x c H; [destruct H|]. cbn [run_length] in H.
  destruct (run_length l) as [|[y d] q] eqn:E.
  - destruct H as [[= <- <-]|[]]. left. reflexivity.
  - destruct (Z.eqb_spec a y) as [->|].
    + destruct H as [[= <- <-]|H]; [left; reflexivity|]. right. apply (IH x c). right. exact H.
    + destruct H as [[= <- <-]|H]; [left; reflexivity|]. right. apply (IH x c). exact H.
Qed.
Lemma run_length_pos l x c : In (x, c) (run_length l) -> 1 <= c.
Proof.
  revert x c. induction l as [|a l IH]; intros x c H; [destruct H|]. cbn [run_length] in H.
  destruct (run_length l) as [|[y d] q].
  - destruct H as [[= <- <-]|[]]. lia.
  - pose proof (IH y d (or_introl eq_refl)). destruct (a =? y).
    + destruct H as [[= <- <-]|H]; [lia|]. apply (IH x c). right. exact H.
    + destruct H as [[= <- <-]|H]; [lia|]. apply (IH x c). exact H.
Qed.
Lemma run_length_sorted l : StronglySorted (fun a b => (a <=? b) = true) l -> StronglySorted Z.lt (map fst (run_length l)).
Proof.
  induction 1 as [|a l HS IH HF]; cbn [run_length]; [constructor|].
  destruct (run_length l) as [|[y d] q] eqn:E; [repeat constructor|].
  destruct (Z.eqb_spec a y) as [->|Hne]; [exact IH|]. cbn [map fst] in *. constructor; [exact IH|].
  rewrite Forall_forall in HF. assert (Hy : a < y).
  { assert (In y l) by (apply (run_length_fst l y d); rewrite E; left; reflexivity). specialize (HF y H). apply Z.leb_le in HF. lia. }
  constructor; [exact Hy|]. inversion IH as [|? ? _ HF']; subst. eapply Forall_impl; [|exact HF']. cbn beta. intros; lia.
Qed.

Lemma leb_total_Z : forall a b : Z, (a <=? b) = true \/ (b <=? a) = true.
Proof. intros. rewrite !Z.leb_le. lia. Qed.
Lemma leb_trans_Z : forall a b c : Z, (a <=? b) = true -> (b <=? c) = true -> (a <=? c) = true.
Proof. intros. rewrite !Z.leb_le in *. lia. Qed.
Lemma unique_counts_csum v l : csum v (unique_counts l) = cnt v l.
Proof. unfold unique_counts. rewrite run_length_csum. apply cnt_perm. apply isort_perm. Qed.
Lemma unique_counts_sorted l : StronglySorted Z.lt (map fst (unique_counts l)).
Proof. unfold unique_counts. apply run_length_sorted. apply isort_sorted; [exact leb_total_Z|exact leb_trans_Z]. Qed.
Lemma unique_counts_fst l x c : In (x, c) (unique_counts l) -> In x l.
Proof. intros H. apply run_length_fst in H. apply (Permutation_in _ (isort_perm Z.leb l)). exact H. Qed.

(** The entry at depth [d] and column [c] is the one of number 2^d + c - 1. *)
Lemma coordinates_match v k d c : 0 <= v < 2 ^ 64 - 1 ->
  (fst (fst (coordinates (v, k))) =? Z.of_nat d) && (snd (fst (coordinates (v, k))) =? c) =
  (0 <=? c) && (c <? 2 ^ Z.of_nat d) && (v =? 2 ^ Z.of_nat d + c - 1).
Proof.
  intros Hv. unfold coordinates. cbn [fst snd]. rewrite u64_small, msb_u64 by lia.
  pose proof (Z.log2_spec (v + 1) ltac:(lia)) as [L1 L2]. pose proof (Z.log2_nonneg (v + 1)) as L0.
  rewrite Z.pow_succ_r in L2 by lia.
  rewrite (u64_small (2 ^ Z.log2 (v + 1))) by lia. rewrite u64_small by lia.
  destruct (Z.eqb_spec (Z.log2 (v + 1)) (Z.of_nat d)) as [E|E]; cbn [andb].
  - rewrite E in *. destruct (Z.eqb_spec (v + 1 - 2 ^ Z.of_nat d) c) as [<-|F].
    + destruct (Z.leb_spec 0 (v + 1 - 2 ^ Z.of_nat d)); [|lia]. destruct (Z.ltb_spec (v + 1 - 2 ^ Z.of_nat d) (2 ^ Z.of_nat d)); [|lia].
      cbn [andb]. symmetry. apply Z.eqb_eq. lia.
    + destruct (Z.eqb_spec v (2 ^ Z.of_nat d + c - 1)); [lia|]. rewrite andb_false_r. reflexivity.
  - destruct (Z.leb_spec 0 c); cbn [andb]; [|reflexivity]. destruct (Z.ltb_spec c (2 ^ Z.of_nat d)); cbn [andb]; [|reflexivity].
    symmetry. apply Z.eqb_neq. intro F. apply E. apply Z.log2_unique; [lia|]. rewrite Z.pow_succ_r by lia. lia.
Qed.
Lemma entry_csum u d c : (forall p, In p u -> 0 <= fst p < 2 ^ 64 - 1) ->
  entry (map coordinates u) (Z.of_nat d) c = if (0 <=? c) && (c <? 2 ^ Z.of_nat d) then csum (2 ^ Z.of_nat d + c - 1) u else 0.
Proof.
  intros H. unfold entry, csum. induction u as [|[v k] u IH].
  - cbn. destruct ((0 <=? c) && (c <? 2 ^ Z.of_nat d)); reflexivity.
  - cbn [map filter]. rewrite (coordinates_match v k d c) by (apply (H (v, k)); left; reflexivity).
    specialize (IH (fun p Hp => H p (or_intror Hp))). cbn [fst].
    destruct ((0 <=? c) && (c <? 2 ^ Z.of_nat d)); cbn [andb]; [|exact IH].
    destruct (v =? 2 ^ Z.of_nat d + c - 1); [|exact IH]. cbn [map fold_right]. rewrite IH. reflexivity.
Qed.

(** ** Numbers and positions *)
Section Positions.
Context {N : num} (incl : bool).
Implicit Type t : tree Z N.
Definition here (d : nat) (c : Z) t : bool := if incl then node_here d c t else split_here d c t.

Lemma heaps_range g t v : 0 <= g -> In v (heaps incl g t) -> 0 <= v <= maxheap g t.
Proof.
  revert g. induction t as [i x|i f thr l IHl r IHr]; intros g Hg H; cbn [heaps maxheap] in *.
  - destruct H as [<-|[]]. destruct incl; lia.
  - pose proof (maxheap_ge (2 * g + 1) l ltac:(lia)). destruct H as [<-|H]; [lia|]. apply in_app_or in H.
    destruct H as [H|H]; [specialize (IHl (2 * g + 1) ltac:(lia) H)|specialize (IHr (2 * g + 2) ltac:(lia) H)]; lia.
Qed.
Lemma heaps_form g t v : 0 <= g -> v <> 0 -> In v (heaps incl g t) ->
  exists d c, v + 1 = 2 ^ Z.of_nat d * (g + 1) + c /\ 0 <= c < 2 ^ Z.of_nat d.
Proof.
  revert g. induction t as [i x|i f thr l IHl r IHr]; intros g Hg Hv H; cbn [heaps] in H.
  - destruct H as [<-|[]]. exists 0%nat, 0. change (2 ^ Z.of_nat 0) with 1. destruct incl; lia.
  - destruct H as [<-|H]; [exists 0%nat, 0; change (2 ^ Z.of_nat 0) with 1; lia|]. apply in_app_or in H.
    destruct H as [H|H].
    + destruct (IHl (2 * g + 1) ltac:(lia) Hv H) as [d [c [E B]]]. exists (S d), c.
      rewrite Nat2Z.inj_succ, Z.pow_succ_r by lia. lia.
    + destruct (IHr (2 * g + 2) ltac:(lia) Hv H) as [d [c [E B]]]. exists (S d), (2 ^ Z.of_nat d + c).
      rewrite Nat2Z.inj_succ, Z.pow_succ_r by lia. lia.
Qed.
Lemma form_log2 d g c : 0 <= g -> 0 <= c < 2 ^ Z.of_nat d -> Z.log2 (2 ^ Z.of_nat d * (g + 1) + c) = Z.of_nat d + Z.log2 (g + 1).
Proof.
  intros Hg Hc. pose proof (Z.log2_spec (g + 1) ltac:(lia)) as [A B]. pose proof (Z.log2_nonneg (g + 1)).
  apply Z.log2_unique; [lia|]. rewrite <- Z.add_succ_r, !Z.pow_add_r by lia.
  set (p := 2 ^ Z.of_nat d) in *. assert (0 < p) by (unfold p; apply Z.pow_pos_nonneg; lia). split; nia.
Qed.
Lemma form_unique d g c d' g' c' : 0 <= g -> 0 <= g' -> Z.log2 (g + 1) = Z.log2 (g' + 1) ->
  0 <= c < 2 ^ Z.of_nat d -> 0 <= c' < 2 ^ Z.of_nat d' ->
  2 ^ Z.of_nat d * (g + 1) + c = 2 ^ Z.of_nat d' * (g' + 1) + c' -> d = d' /\ g = g' /\ c = c'.
Proof.
  intros Hg Hg' HL Hc Hc' E. pose proof (form_log2 d g c Hg Hc). pose proof (form_log2 d' g' c' Hg' Hc').
  assert (d = d') by (rewrite E in *; lia). subst d'. split; [reflexivity|].
  set (p := 2 ^ Z.of_nat d) in *. assert (0 < p) by lia.
  assert (g + 1 = g' + 1); [|split; nia].
  transitivity ((p * (g + 1) + c) / p).
  - apply (Z.div_unique_pos _ p _ c); lia.
  - rewrite E. symmetry. apply (Z.div_unique_pos _ p _ c'); lia.
Qed.
Lemma log2_siblings g : 0 <= g -> Z.log2 (2 * g + 1 + 1) = Z.log2 (2 * g + 2 + 1).
Proof.
  intros Hg. replace (2 * g + 1 + 1) with (2 * (g + 1)) by lia. replace (2 * g + 2 + 1) with (2 * (g + 1) + 1) by lia.
  rewrite Z.log2_double, Z.log2_succ_double by lia. reflexivity.
Qed.

Lemma testbit_top c d : 0 <= c < 2 ^ Z.of_nat (S d) -> Z.testbit c (Z.of_nat d) = (2 ^ Z.of_nat d <=? c).
Proof.
  intros H. rewrite Nat2Z.inj_succ, Z.pow_succ_r in H by lia. set (p := 2 ^ Z.of_nat d) in *.
  destruct (Z.leb_spec p c).
  - apply Z.testbit_true; [lia|]. fold p. replace (c / p) with 1; [reflexivity|]. apply (Z.div_unique_pos c p 1 (c - p)); lia.
  - apply Z.testbit_false; [lia|]. fold p. rewrite Z.div_small by lia. reflexivity.
Qed.
Lemma subtree_low d : forall k c t, (d <= k)%nat -> subtree_at d (2 ^ Z.of_nat k + c) t = subtree_at d c t.
Proof.
  induction d as [|d IH]; intros k c t H; [destruct t; reflexivity|]. destruct t as [i x|i f thr l r]; [reflexivity|]. cbn [subtree_at].
  rewrite !IH by lia.
  replace (Z.testbit (2 ^ Z.of_nat k + c) (Z.of_nat d)) with (Z.testbit c (Z.of_nat d)); [reflexivity|].
  rewrite <- (Z.mod_pow2_bits_low c (Z.of_nat k)), <- (Z.mod_pow2_bits_low (2 ^ Z.of_nat k + c) (Z.of_nat k)) by lia.
  f_equal. replace (2 ^ Z.of_nat k + c) with (c + 1 * 2 ^ Z.of_nat k) by lia.
  rewrite Z.mod_add; [reflexivity|]. apply Z.pow_nonzero; lia.
Qed.

Lemma heaps_cnt t : forall g d c, 0 <= g -> 0 <= c < 2 ^ Z.of_nat d -> 2 ^ Z.of_nat d * (g + 1) + c <> 1 ->
  cnt (2 ^ Z.of_nat d * (g + 1) + c - 1) (heaps incl g t) = if here d c t then 1 else 0.
Proof.
  induction t as [i x|i f thr l IHl r IHr]; intros g d c Hg Hc Hv.
  - cbn [heaps]. rewrite cnt_cons. change (cnt (2 ^ Z.of_nat d * (g + 1) + c - 1) []) with 0.
    unfold here, node_here, split_here. destruct d as [|d].
    + cbn [subtree_at]. change (2 ^ Z.of_nat 0) with 1 in *. replace c with 0 in * by lia.
      destruct incl; [destruct (Z.eqb_spec g (1 * (g + 1) + 0 - 1)); lia|].
      destruct (Z.eqb_spec 0 (1 * (g + 1) + 0 - 1)); lia.
    + cbn [subtree_at]. rewrite Nat2Z.inj_succ, Z.pow_succ_r in * by lia.
      set (p := 2 ^ Z.of_nat d) in *. assert (0 < p) by lia.
      destruct incl; [destruct (Z.eqb_spec g (2 * p * (g + 1) + c - 1)); [nia|reflexivity]|].
      destruct (Z.eqb_spec 0 (2 * p * (g + 1) + c - 1)); [nia|reflexivity].
  - cbn [heaps]. rewrite cnt_cons, cnt_app. destruct d as [|d].
    + change (2 ^ Z.of_nat 0) with 1 in *. replace c with 0 in * by lia.
      destruct (Z.eqb_spec g (1 * (g + 1) + 0 - 1)); [|lia].
      rewrite !cnt_none; [unfold here, node_here, split_here; cbn; destruct incl; reflexivity| |].
      * intro C. apply heaps_form in C; try lia. destruct C as [d' [c' [E B]]].
        set (p := 2 ^ Z.of_nat d') in *. nia.
      * intro C. apply heaps_form in C; try lia. destruct C as [d' [c' [E B]]].
        set (p := 2 ^ Z.of_nat d') in *. nia.
    + rewrite Nat2Z.inj_succ, Z.pow_succ_r in * by lia.
      assert (Hp : 0 < 2 ^ Z.of_nat d) by (apply Z.pow_pos_nonneg; lia).
      destruct (Z.eqb_spec g (2 * 2 ^ Z.of_nat d * (g + 1) + c - 1)) as [F|_]; [exfalso; nia|].
      unfold here, node_here, split_here. cbn [subtree_at]. rewrite testbit_top by (rewrite Nat2Z.inj_succ, Z.pow_succ_r; lia).
      destruct (Z.leb_spec (2 ^ Z.of_nat d) c) as [Hd|Hd].
      * assert (E : 2 * 2 ^ Z.of_nat d * (g + 1) + c = 2 ^ Z.of_nat d * (2 * g + 2 + 1) + (c - 2 ^ Z.of_nat d)) by ring.
        rewrite E, IHr; try lia. rewrite cnt_none.
        { unfold here, node_here, split_here. rewrite <- (subtree_low d d (c - 2 ^ Z.of_nat d) r) by lia.
          replace (2 ^ Z.of_nat d + (c - 2 ^ Z.of_nat d)) with c by lia. destruct incl; lia. }
        intro C. apply heaps_form in C; try lia. destruct C as [d' [c' [E' B']]].
        destruct (form_unique d (2 * g + 2) (c - 2 ^ Z.of_nat d) d' (2 * g + 1) c') as [_ [X _]]; try lia.
        symmetry. apply log2_siblings. exact Hg.
      * assert (E : 2 * 2 ^ Z.of_nat d * (g + 1) + c = 2 ^ Z.of_nat d * (2 * g + 1 + 1) + c) by ring.
        rewrite E, IHl; try lia. rewrite (cnt_none _ (heaps incl (2 * g + 2) r)).
        { unfold here, node_here, split_here. destruct incl; lia. }
        intro C. apply heaps_form in C; try lia. destruct C as [d' [c' [E' B']]].
        destruct (form_unique d (2 * g + 1) c d' (2 * g + 2) c') as [_ [X _]]; try lia.
        apply log2_siblings. exact Hg.
Qed.

Lemma flat_cnt (ts : list (tree Z N)) d c : 0 <= c < 2 ^ Z.of_nat d -> 2 ^ Z.of_nat d + c <> 1 ->
  cnt (2 ^ Z.of_nat d + c - 1) (flat_map (heaps incl 0) ts) = how_many (here d c) ts.
Proof.
  intros Hc Hv. unfold how_many. induction ts as [|t ts IH]; [reflexivity|]. cbn [flat_map filter]. rewrite cnt_app, IH.
  pose proof (heaps_cnt t 0 d c ltac:(lia) Hc) as H. rewrite Z.add_0_l, Z.mul_1_r in H. rewrite H by exact Hv.
  destruct (here d c t); cbn [length]; lia.
Qed.
End Positions.

(** ** The matrix *)
Section Matrix.
Context {N : num} (incl : bool).
Implicit Type ts : list (tree Z N).
Lemma heaps_root (t : tree Z N) : In 0 (heaps incl 0 t).
Proof. destruct t; cbn [heaps]; [destruct incl|]; left; reflexivity. Qed.

Lemma topology_ok (e : ensemble N) ts ws order : laid_out e ts ws -> Forall parents_first ts -> Forall (fun t => (height t <= 63)%nat) ts ->
  ts <> [] -> Permutation order (zrange 0 (e_ntrees e)) ->
  exists u, topology incl e order = Ok (map coordinates u, map (fun t => Z.of_nat (height t)) ts) /\
    (forall p, In p u -> 0 <= fst p < 2 ^ 64 - 1 /\ 1 <= snd p) /\ StronglySorted Z.lt (map fst u) /\
    forall d c, 0 <= c < 2 ^ Z.of_nat d -> csum (2 ^ Z.of_nat d + c - 1) u = how_many (counted incl d c) ts.
Proof.
  intros HL HP HH Hne Ho. destruct (all_indices_ok incl e ts ws order HL HP HH Ho) as [mem [E PM]].
  unfold topology. rewrite E. cbn [bind fst snd].
  pose proof HL as [[HT _] _]. rewrite HT.
  assert (Hrange : forall x, In x mem -> 0 <= x < 2 ^ 64 - 1).
  { intros x Hx. apply (Permutation_in _ PM) in Hx. apply in_flat_map in Hx. destruct Hx as [t [Ht Hx]].
    apply heaps_range in Hx; [|lia]. rewrite Forall_forall in HH. specialize (HH t Ht).
    destruct (maxheap_bounds 0 t ltac:(lia)) as [_ M]. assert (2 ^ Z.of_nat (height t) <= 2 ^ 63) by (apply Z.pow_le_mono_r; lia).
    assert (2 ^ 64 = 2 ^ 63 * 2) by reflexivity. lia. }
  assert (H0 : In 0 mem).
  { apply (Permutation_in _ (Permutation_sym PM)). destruct ts as [|t ts']; [contradiction|]. apply in_flat_map. exists t.
    split; [left; reflexivity|apply heaps_root]. }
  pose proof (unique_counts_sorted mem) as HS. pose proof (unique_counts_fst mem) as HF.
  pose proof (fun v => unique_counts_csum v mem) as HC.
  destruct (unique_counts mem) as [|[v k] u] eqn:EU.
  { exfalso. specialize (HC 0). unfold csum in HC. cbn in HC. unfold cnt in HC.
    apply (count_occ_In Z.eq_dec) in H0. lia. }
  assert (Hv : v = 0).
  { assert (0 <= v) by (apply Hrange; apply (HF v k); left; reflexivity).
    destruct (Z.eq_dec v 0) as [|Hn]; [assumption|exfalso].
    assert (Z0 : csum 0 ((v, k) :: u) = 0).
    { rewrite csum_cons. cbn [fst]. destruct (Z.eqb_spec v 0); [contradiction|].
      inversion HS as [|? ? _ HF']; subst. clear - HF' H Hn. rewrite Forall_forall in HF'.
      induction u as [|[y d] u IH]; [reflexivity|]. rewrite csum_cons. cbn [fst].
      assert (v < y) by (apply HF'; left; reflexivity). destruct (Z.eqb_spec y 0); [lia|]. rewrite IH; [reflexivity|].
      intros x Hx. apply HF'. right. exact Hx. }
    rewrite HC in Z0. unfold cnt in Z0. apply (count_occ_In Z.eq_dec) in H0. lia. }
  subst v. exists ((0, Z.of_nat (length ts)) :: u). split; [reflexivity|]. split.
  { intros [x c] [[= <- <-]|Hx]; cbn [fst snd]; [destruct ts; [contradiction|cbn [length]; lia]|].
    split; [apply Hrange; apply (HF x c); right; exact Hx|]. apply (run_length_pos (isort Z.leb mem) x c).
    unfold unique_counts in EU. rewrite EU. right. exact Hx. }
  split; [exact HS|].
  intros d c Hc. rewrite csum_cons. cbn [fst snd]. destruct (Z.eqb_spec 0 (2 ^ Z.of_nat d + c - 1)) as [F|F].
  - assert (d = 0%nat /\ c = 0) as [-> ->].
    { destruct d; [cbn in *; split; lia|]. rewrite Nat2Z.inj_succ, Z.pow_succ_r in F by lia.
      assert (0 < 2 ^ Z.of_nat d) by (apply Z.pow_pos_nonneg; lia). lia. }
    replace (csum (2 ^ Z.of_nat 0 + 0 - 1) u) with 0.
    + unfold how_many. replace (filter (counted incl 0 0) ts) with ts; [lia|]. symmetry. clear.
      induction ts as [|t ts IH]; [reflexivity|]. cbn [filter]. replace (counted incl 0 0 t) with true; [f_equal; exact IH|].
      unfold counted, node_here. destruct t, incl; reflexivity.
    + cbn [map fst] in HS. inversion HS as [|? ? _ HF']; subst. clear - HF'. rewrite Forall_forall in HF'. change (2 ^ Z.of_nat 0 + 0 - 1) with 0.
      induction u as [|[y d] u IH]; [reflexivity|]. rewrite csum_cons. cbn [fst].
      assert (0 < y) by (apply HF'; left; reflexivity). destruct (Z.eqb_spec y 0); [lia|]. rewrite <- IH; [reflexivity|].
      intros x Hx. apply HF'. right. exact Hx.
  - specialize (HC (2 ^ Z.of_nat d + c - 1)). rewrite csum_cons in HC. cbn [fst snd] in HC.
    destruct (Z.eqb_spec 0 (2 ^ Z.of_nat d + c - 1)); [contradiction|]. rewrite HC, (cnt_perm _ _ _ PM).
    rewrite (flat_cnt incl ts d c Hc) by lia. unfold how_many. f_equal. f_equal.
    apply filter_ext. intro t. unfold here, counted. destruct incl; [reflexivity|]. destruct d; [|reflexivity]. cbn in Hc, F. lia.
Qed.

Lemma C46_lemma (e : ensemble N) ts ws order : laid_out e ts ws -> Forall parents_first ts -> Forall (fun t => (height t <= 63)%nat) ts ->
  ts <> [] -> Permutation order (zrange 0 (e_ntrees e)) ->
  exists m, topology incl e order = Ok (m, map (fun t => Z.of_nat (height t)) ts) /\
    forall d c, entry m (Z.of_nat d) c = if (0 <=? c) && (c <? 2 ^ Z.of_nat d) then how_many (counted incl d c) ts else 0.
Proof.
  intros HL HP HH Hne Ho. destruct (topology_ok e ts ws order HL HP HH Hne Ho) as [u [E [HR [_ HC]]]].
  exists (map coordinates u). split; [exact E|]. intros d c. rewrite entry_csum by (intros p Hp; apply (HR p Hp)).
  destruct (Z.leb_spec 0 c); cbn [andb]; [|reflexivity]. destruct (Z.ltb_spec c (2 ^ Z.of_nat d)); [|reflexivity].
  apply HC. lia.
Qed.
End Matrix.
