(** Proofs: the loop over the trees of the topological analysis, in any schedule. *)
From Coq Require Import List ZArith Bool Lia Permutation Arith.
From Verif Require Import Base Num Lists M_Dataset M_Ensemble S_Ensemble L_Ensemble L_Loaders M_Topology S_Topology L_Topology L_Topology2
  L_CatBoost M_Schedule S_Schedule L_Schedule.
Import ListNotations.
Local Open Scope Z_scope.

Lemma tcell_eqb_ok a b : tcell_eqb a b = true <-> a = b.
Proof. destruct a, b; cbn [tcell_eqb]; try (split; discriminate); rewrite Z.eqb_eq; split; congruence. Qed.
Lemma inside_ok n i : 0 <= i < n -> inside n i = true.
Proof. intros H. unfold inside. destruct (Z.leb_spec 0 i), (Z.ltb_spec i n); try lia; reflexivity. Qed.
Lemma inside_true n i : inside n i = true -> 0 <= i < n.
Proof. unfold inside. destruct (Z.leb_spec 0 i), (Z.ltb_spec i n); try discriminate; lia. Qed.
Lemma keeps_get {A V R} (own read : A -> Prop) n (c : Z -> A) i (k : V -> prog R) : (own (c i) \/ read (c i)) -> (forall v, keeps_to own read (k v)) ->
  keeps_to own read (get_at n c i k).
Proof. intros H K. unfold get_at. destruct (inside n i); [|exact I]. split; [exact H|exact K]. Qed.
Lemma keeps_put {A V R} (own read : A -> Prop) n (c : Z -> A) i (v : V) (k : prog R) : own (c i) -> keeps_to own read k ->
  keeps_to own read (put_at n c i v k).
Proof. intros H K. unfold put_at. destruct (inside n i); [|exact I]. split; [exact H|exact K]. Qed.

Section Topology.
Context {N : num} (incl : bool).
Implicit Type t : tree Z N.
Implicit Type ts : list (tree Z N).

(** A node of a tree is a leaf, or its children are nodes of the tree. *)
Lemma node_cell (e : ensemble N) t : represents e t -> forall i, In i (marks t) ->
  (zget (e_left e) i = Some (-1) /\ zget (e_right e) i = Some (-1)) \/
  (exists l r, zget (e_left e) i = Some l /\ zget (e_right e) i = Some r /\ In l (marks t) /\ In r (marks t)).
Proof.
  induction t as [j v|j f thr l IHl r IHr]; cbn [represents marks]; intros H i Hi.
  - destruct Hi as [<-|[]]. left. tauto.
  - destruct H as [H1 [H2 [_ [_ [Hl Hr]]]]]. destruct Hi as [<-|Hi].
    + right. exists (mark l), (mark r). split; [exact H1|]. split; [exact H2|]. split; right; apply in_or_app; [left|right]; apply mark_in_marks.
    + apply in_app_or in Hi. destruct Hi as [Hi|Hi].
      * destruct (IHl Hl i Hi) as [?|[a [b [A [B [C D]]]]]]; [left; assumption|right]. exists a, b.
        split; [exact A|]. split; [exact B|]. split; right; apply in_or_app; auto.
      * destruct (IHr Hr i Hi) as [?|[a [b [A [B [C D]]]]]]; [left; assumption|right]. exists a, b.
        split; [exact A|]. split; [exact B|]. split; right; apply in_or_app; auto.
Qed.

(** The cells of tree [j]. *)
Definition own ts (j : nat) (c : tcell) : Prop :=
  match c with
  | NodeC i => off ts j <= i < off ts (S j)
  | HeightC i => i = Z.of_nat j
  | _ => False
  end.
Lemma own_disjoint ts i j c : own ts i c -> own ts j c -> i = j.
Proof.
  destruct c as [k|k|k|k]; cbn [own]; try tauto; intros H1 H2; [|lia].
  destruct (Nat.lt_trichotomy i j) as [H|[H|H]]; [|exact H|].
  - pose proof (off_mono ts (S i) j H). lia.
  - pose proof (off_mono ts (S j) i H). lia.
Qed.
Lemma marks_own (e : ensemble N) ts ws j t : laid_out e ts ws -> nth_error ts j = Some t -> forall i, In i (marks t) <-> off ts j <= i < off ts (S j).
Proof.
  intros [_ [HC _]] E i. destruct (consecutive_nth ts 0 j t HC E) as [_ P]. rewrite Z.add_0_l in P.
  rewrite (off_S ts j t E), <- in_zrange. split; apply Permutation_in; [exact P|symmetry; exact P].
Qed.
Lemma root_ok (e : ensemble N) ts ws j t : laid_out e ts ws -> nth_error ts j = Some t -> mem_get (e_root e) (Z.of_nat j) = Ok (off ts j).
Proof.
  intros [[_ [HR _]] [HC _]] E. destruct (consecutive_nth ts 0 j t HC E) as [M _]. apply mem_get_zget.
  rewrite zget_nth, HR, nth_error_map', E. cbn [option_map]. rewrite M. reflexivity.
Qed.

Lemma index_keeps (e : ensemble N) ts ws j t read mx cur : laid_out e ts ws -> nth_error ts j = Some t -> In cur (marks t) ->
  keeps_to (own ts j) read (index_prog incl e mx cur).
Proof.
  intros HL E Hc. pose proof HL as [[_ [_ [_ [_ HRep]]]] _]. rewrite Forall_forall in HRep.
  pose proof (marks_own e ts ws j t HL E) as HM.
  unfold index_prog, leaf_cell.
  destruct (node_cell e t (HRep t (nth_error_In _ _ E)) cur Hc) as [[A B]|[l [r [A [B [Hl Hr]]]]]].
  - rewrite (mem_get_zget _ _ _ A). cbn [bind]. change (negb (-1 =? -1)) with false. cbn iota. rewrite (mem_get_zget _ _ _ B). cbn [bind lift].
    change (-1 =? -1) with true. destruct incl; [exact I|]. apply keeps_put; [apply HM; exact Hc|exact I].
  - rewrite (mem_get_zget _ _ _ A), (mem_get_zget _ _ _ B). cbn [bind lift].
    assert (K : keeps_to (own ts j) read (get_at (e_nnodes e) NodeC cur (fun v =>
       put_at (e_nnodes e) NodeC l (u64 (2 * v + 1)) (put_at (e_nnodes e) NodeC r (u64 (2 * v + 2))
         (Ret (Z.max (Z.max mx (u64 (2 * v + 1))) (u64 (2 * v + 2)))))))).
    { apply keeps_get; [left; apply HM; exact Hc|]. intro v. apply keeps_put; [apply HM; exact Hl|].
      apply keeps_put; [apply HM; exact Hr|exact I]. }
    destruct (negb (l =? -1)); cbn [lift]; [exact K|]. destruct (r =? -1); cbn [lift]; [|exact K].
    destruct incl; [exact I|]. apply keeps_put; [apply HM; exact Hc|exact I].
Qed.
Lemma tree_keeps (e : ensemble N) ts ws j t read : laid_out e ts ws -> nth_error ts j = Some t ->
  keeps_to (own ts j) read (tree_prog incl e (Z.of_nat j)).
Proof.
  intros HL E. unfold tree_prog. rewrite (last_node_ok e ts ws j t HL E), (root_ok e ts ws j t HL E). cbn [lift].
  apply keeps_andthen.
  - apply keeps_repeated. intros mx cur Hc. apply (index_keeps e ts ws j t); try assumption.
    apply (marks_own e ts ws j t HL E). rewrite in_zrange in Hc. rewrite (off_S ts j t E). exact Hc.
  - intro mx. apply keeps_put; [reflexivity|exact I].
Qed.

(** The loops on lists and the programs agree. *)
Definition same (n : Z) (ix : list Z) (m : tcell -> Z) : Prop :=
  Z.of_nat (length ix) = n /\ forall i, 0 <= i < n -> zget ix i = Some (m (NodeC i)).
Lemma same_set n ix m i v ix' : same n ix m -> mem_set ix i v = Ok ix' -> inside n i = true /\ same n ix' (put tcell_eqb m (NodeC i) v).
Proof.
  intros [L H] E. unfold mem_set in E. rewrite L in E. destruct (Z.ltb_spec i 0), (Z.leb_spec n i); cbn [orb] in E; try discriminate.
  injection E as <-. split; [apply inside_ok; lia|]. split; [rewrite upd_length; exact L|]. intros j Hj.
  rewrite zget_upd by lia. unfold put. cbn [tcell_eqb]. rewrite (Z.eqb_sym j i). destruct (i =? j); [reflexivity|apply H; exact Hj].
Qed.
Lemma same_get n ix m i v : same n ix m -> mem_get ix i = Ok v -> inside n i = true /\ m (NodeC i) = v.
Proof.
  intros [L H] E. unfold mem_get in E. destruct (zget ix i) as [w|] eqn:G; [|discriminate]. injection E as <-.
  pose proof (zget_range _ _ _ G) as B. split; [apply inside_ok; lia|]. rewrite H in G by lia. injection G as <-. reflexivity.
Qed.
Lemma index_same (e : ensemble N) ix mx cur ix' mx' m : same (e_nnodes e) ix m -> index_step incl e (ix, mx) cur = Ok (ix', mx') ->
  exists m', alone tcell_eqb (index_prog incl e mx cur) m = (m', Ok mx') /\ same (e_nnodes e) ix' m'.
Proof.
  intros S E. unfold index_step in E. unfold index_prog.
  destruct (leaf_cell e cur) as [leaf|x]; cbn [bind lift] in *; [|discriminate].
  destruct leaf.
  - destruct incl.
    + injection E as <- <-. exists m. split; [reflexivity|exact S].
    + destruct (mem_set ix cur 0) as [ix1|] eqn:E1; cbn [bind] in E; [|discriminate]. injection E as <- <-.
      destruct (same_set _ _ _ _ _ _ S E1) as [I1 S1]. unfold put_at. rewrite I1. cbn [alone]. eexists. split; [reflexivity|exact S1].
  - destruct (mem_get ix cur) as [v|] eqn:E0; cbn [bind] in E; [|discriminate].
    destruct (same_get _ _ _ _ _ S E0) as [I0 V0]. unfold get_at. rewrite I0. cbn [alone]. rewrite V0.
    destruct (mem_get (e_left e) cur) as [l|]; cbn [bind lift] in *; [|discriminate].
    destruct (mem_set ix l (u64 (2 * v + 1))) as [ix1|] eqn:E1; cbn [bind] in E; [|discriminate].
    destruct (same_set _ _ _ _ _ _ S E1) as [I1 S1]. unfold put_at. rewrite I1. cbn [alone].
    destruct (mem_get (e_right e) cur) as [r|]; cbn [bind lift] in *; [|discriminate].
    destruct (mem_set ix1 r (u64 (2 * v + 2))) as [ix2|] eqn:E2; cbn [bind] in E; [|discriminate].
    destruct (same_set _ _ _ _ _ _ S1 E2) as [I2 S2]. rewrite I2. cbn [alone]. injection E as <- <-.
    eexists. split; [reflexivity|exact S2].
Qed.
Lemma indices_same (e : ensemble N) l : forall ix mx ix' mx' m, same (e_nnodes e) ix m -> foldM (index_step incl e) l (ix, mx) = Ok (ix', mx') ->
  exists m', alone tcell_eqb (repeated (index_prog incl e) l mx) m = (m', Ok mx') /\ same (e_nnodes e) ix' m'.
Proof.
  induction l as [|x l IH]; intros ix mx ix' mx' m S E; cbn [foldM repeated] in *.
  - injection E as <- <-. exists m. auto.
  - destruct (index_step incl e (ix, mx) x) as [[ix1 mx1]|] eqn:E1; cbn [bind] in E; [|discriminate].
    destruct (index_same e ix mx x ix1 mx1 m S E1) as [m1 [A1 S1]]. rewrite alone_andthen, A1. exact (IH _ _ _ _ _ S1 E).
Qed.
Lemma tree_same (e : ensemble N) (t : Z) last ix ix' h m : same (e_nnodes e) ix m -> last_node e t = Ok last ->
  node_indices incl e t last ix = Ok (ix', h) -> 0 <= t < e_ntrees e ->
  exists m', alone tcell_eqb (tree_prog incl e t) m = (m', Ok tt) /\ same (e_nnodes e) ix' m' /\ m' (HeightC t) = u32 h.
Proof.
  intros S E1 E2 Ht. unfold node_indices in E2. unfold tree_prog. rewrite E1. cbn [lift].
  destruct (mem_get (e_root e) t) as [root|]; cbn [bind lift] in *; [|discriminate].
  destruct (foldM (index_step incl e) (zrange root last) (ix, 0)) as [[ix1 mx]|] eqn:E3; cbn [bind fst snd] in E2; [|discriminate].
  injection E2 as <- <-. destruct (indices_same e _ _ _ _ _ _ S E3) as [m1 [A1 [L1 S1]]]. rewrite alone_andthen, A1.
  unfold put_at. rewrite inside_ok by exact Ht. cbn [alone]. eexists. split; [reflexivity|]. split.
  - split; [exact L1|]. intros i Hi. cbn [tcell_eqb]. apply S1. exact Hi.
  - cbv beta. cbn [tcell_eqb]. rewrite Z.eqb_refl. reflexivity.
Qed.

Definition tree_loop (e : ensemble N) : list (prog (A:=tcell) (V:=Z) unit) := map (tree_prog incl e) (zrange 0 (e_ntrees e)).
Lemma tree_loop_nth (e : ensemble N) ts ws i p : laid_out e ts ws -> nth_error (tree_loop e) i = Some p ->
  exists t, nth_error ts i = Some t /\ p = tree_prog incl e (Z.of_nat i).
Proof.
  intros HL H. pose proof HL as [[HT _] _]. unfold tree_loop in H. rewrite HT, zrange_seq, map_map, nth_error_map' in H.
  destruct (nth_error (seq 0 (length ts)) i) as [k|] eqn:E; [|discriminate]. injection H as <-.
  assert (Hi : (i < length ts)%nat) by (rewrite <- (seq_length (length ts) 0); apply nth_error_Some; congruence).
  apply (nth_error_nth _ _ 0%nat) in E. rewrite seq_nth in E by exact Hi. cbn in E. subst k.
  destruct (nth_error ts i) as [t|] eqn:Et; [|apply nth_error_None in Et; lia]. exists t. auto.
Qed.
Lemma tree_loop_disjoint (e : ensemble N) ts ws : laid_out e ts ws -> disjoint_iterations (own ts) (tree_loop e).
Proof.
  intros HL. split; [intros i j c; apply own_disjoint|]. intros i p Hp.
  destruct (tree_loop_nth e ts ws i p HL Hp) as [t [Et ->]]. apply (tree_keeps e ts ws i t); assumption.
Qed.

Definition zeros : tcell -> Z := fun _ => 0.
Lemma tree_alone (e : ensemble N) ts ws j t : laid_out e ts ws -> Forall parents_first ts -> Forall (fun t => (height t <= 63)%nat) ts ->
  nth_error ts j = Some t ->
  exists m', alone tcell_eqb (tree_prog incl e (Z.of_nat j)) zeros = (m', Ok tt) /\
    map (fun i => m' (NodeC i)) (marks t) = heaps incl 0 t /\ m' (HeightC (Z.of_nat j)) = Z.of_nat (height t).
Proof.
  intros HL HP HH E. pose proof HL as [[HT _] [_ [HN _]]].
  assert (Hj : (j < length ts)%nat) by (apply nth_error_Some; congruence).
  assert (HM : forall i, In i (marks t) -> 0 <= i < e_nnodes e).
  { intros i Hi. apply (marks_own e ts ws j t HL E) in Hi. pose proof (off_mono ts 0 j ltac:(lia)) as B1. rewrite off_0 in B1.
    pose proof (off_mono ts (S j) (length ts) Hj) as B2. rewrite (off_all ts (length ts)) in B2 by lia. lia. }
  destruct (run_ok incl e ts ws HL HP HH [Z.of_nat j] ltac:(constructor; [intros []|constructor])
              ltac:(intros k [<-|[]]; lia) (repeat 0 (total_size ts)) (repeat 0 (length ts))
              ltac:(apply repeat_length) ltac:(apply repeat_length)) as [mem' [hs' [F [_ [_ G]]]]].
  { intros k u [Hk|[]] Eu. assert (k = j) by lia. subst k. rewrite E in Eu. injection Eu as <-.
    apply zget_repeat. rewrite <- HN. apply HM, mark_in_marks. }
  cbn [foldM] in F. rewrite (last_node_ok e ts ws j t HL E) in F. cbn [bind fst snd] in F.
  destruct (node_indices incl e (Z.of_nat j) (off ts j + Z.of_nat (size t)) (repeat 0 (total_size ts))) as [[ix h]|] eqn:EN;
    cbn [bind fst snd] in F; [|discriminate].
  destruct (mem_set (repeat 0 (length ts)) (Z.of_nat j) (u32 h)) as [h1|] eqn:EH; cbn [bind] in F; [|discriminate].
  injection F as <- <-. destruct (proj1 (G j t E) (or_introl eq_refl)) as [G1 G2].
  assert (S0 : same (e_nnodes e) (repeat 0 (total_size ts)) zeros).
  { split; [rewrite repeat_length, HN; reflexivity|]. intros i Hi. rewrite HN in Hi. apply zget_repeat. exact Hi. }
  destruct (tree_same e (Z.of_nat j) _ _ ix h zeros S0 (last_node_ok e ts ws j t HL E) EN ltac:(lia)) as [m' [A [[_ S2] Hh]]].
  { exists m'. split; [exact A|]. split.
    + apply (f_equal (map (fun o => match o with Some x => x | None => 0 end))) in G1. rewrite !map_map, map_id in G1.
      rewrite <- G1. apply map_ext_in. intros i Hi. rewrite S2 by (apply HM; exact Hi). reflexivity.
    + destruct (mem_set_zget (repeat 0 (length ts)) (Z.of_nat j) (u32 h) ltac:(rewrite repeat_length; lia)) as [h2 [EH2 [_ GH]]].
      rewrite EH in EH2. injection EH2 as <-. rewrite GH, Z.eqb_refl in G2. congruence. }
Qed.

Lemma somes_eq {X} (a b : list X) : map Some a = map Some b -> a = b.
Proof. revert b. induction a as [|x a IH]; intros [|y b] H; try discriminate; [reflexivity|]. injection H as -> H. f_equal. apply IH, H. Qed.

(** C84, topological analysis. *)
Lemma tree_loop_any (e : ensemble N) ts ws order : laid_out e ts ws -> Forall parents_first ts -> Forall (fun t => (height t <= 63)%nat) ts ->
  Permutation order (zrange 0 (e_ntrees e)) -> forall c m rs, steps tcell_eqb (zeros, tree_loop e) c -> finished c m rs ->
  all_indices incl e order = Ok (map (fun i => m (NodeC i)) (zrange 0 (e_nnodes e)), map (fun i => m (HeightC i)) (zrange 0 (e_ntrees e))).
Proof.
  intros HL HP HH Ho c m rs Hs Hf. pose proof HL as [[HT _] [HC [HN _]]].
  destruct (any_schedule tcell_eqb tcell_eqb_ok (own ts) zeros (tree_loop e) c m rs (tree_loop_disjoint e ts ws HL) Hs Hf) as [O1 _].
  assert (Hin : forall j, In j order <-> 0 <= j < Z.of_nat (length ts)).
  { intro j. rewrite <- HT, <- in_zrange. split; apply Permutation_in; [exact Ho|symmetry; exact Ho]. }
  destruct (run_ok incl e ts ws HL HP HH order) with (mem := repeat 0 (total_size ts)) (hs := repeat 0 (length ts)) as [mem' [hs' [F [L1 [L2 G]]]]].
  - apply (Permutation_NoDup (Permutation_sym Ho)), zrange_nodup.
  - intros j Hj. apply Hin. exact Hj.
  - apply repeat_length.
  - apply repeat_length.
  - intros j t Hj E. apply zget_repeat.
    assert (H : In (mark t) (marks t)) by apply mark_in_marks. apply (marks_own e ts ws j t HL E) in H.
    assert (Hj' : (j < length ts)%nat) by (apply nth_error_Some; congruence).
    pose proof (off_mono ts 0 j ltac:(lia)) as B1. rewrite off_0 in B1.
    pose proof (off_mono ts (S j) (length ts) Hj') as B2. rewrite (off_all ts (length ts)) in B2 by lia. lia.
  - unfold all_indices. rewrite HN, HT, !Nat2Z.id, F. f_equal.
    assert (Q : forall j t, nth_error ts j = Some t ->
              map (fun i => m (NodeC i)) (marks t) = heaps incl 0 t /\ m (HeightC (Z.of_nat j)) = Z.of_nat (height t)).
    { intros j t E. destruct (tree_alone e ts ws j t HL HP HH E) as [m' [A [B1 B2]]].
      assert (E' : nth_error (tree_loop e) j = Some (tree_prog incl e (Z.of_nat j))).
      { unfold tree_loop. rewrite HT, zrange_seq, map_map, nth_error_map'.
        assert (Hj' : (j < length ts)%nat) by (apply nth_error_Some; congruence).
        rewrite (nth_error_nth' _ 0%nat) by (rewrite seq_length; exact Hj'). rewrite seq_nth by exact Hj'. reflexivity. }
      split.
      - rewrite <- B1. apply map_ext_in. intros i Hi. rewrite (O1 j _ (NodeC i) E'), A; [reflexivity|].
        cbn [own]. apply (marks_own e ts ws j t HL E). exact Hi.
      - rewrite (O1 j _ (HeightC (Z.of_nat j)) E'), A; [exact B2|reflexivity]. }
    assert (Hcover : forall i, 0 <= i < Z.of_nat (total_size ts) -> exists j t, nth_error ts j = Some t /\ In i (marks t)).
    { intros i Hi. pose proof (consecutive_marks ts 0 HC) as P. rewrite Z.add_0_l in P.
      assert (H : In i (flat_map marks ts)) by (apply (Permutation_in _ (Permutation_sym P)), in_zrange; exact Hi).
      apply in_flat_map in H as [t [Ht Hit]]. apply In_nth_error in Ht as [j Hj]. exists j, t. auto. }
    f_equal.
    + apply somes_eq. rewrite <- zget_all, L1, map_map. apply map_ext_in. intros i Hi. apply in_zrange in Hi.
      destruct (Hcover i Hi) as [j [t [E Hit]]]. destruct (Q j t E) as [Q1 _].
      assert (Hj : In (Z.of_nat j) order) by (apply Hin; assert (j < length ts)%nat by (apply nth_error_Some; congruence); lia).
      destruct (proj1 (G j t E) Hj) as [G1 _]. rewrite <- Q1, map_map in G1.
      apply (ext_in_map G1 i Hit).
    + apply somes_eq. rewrite <- zget_all, L2, map_map. apply map_ext_in. intros i Hi. apply in_zrange in Hi.
      destruct (nth_error ts (Z.to_nat i)) as [t|] eqn:E; [|apply nth_error_None in E; lia].
      destruct (Q _ t E) as [_ Q2]. destruct (proj1 (G _ t E)) as [_ G2]; [apply Hin; lia|].
      rewrite Z2Nat.id in Q2, G2 by lia. rewrite G2, Q2. reflexivity.
Qed.

Lemma tree_loop_ends (e : ensemble N) ts ws : laid_out e ts ws -> Forall parents_first ts -> Forall (fun t => (height t <= 63)%nat) ts ->
  forall c, steps tcell_eqb (zeros, tree_loop e) c ->
    Acc (fun c' c => step tcell_eqb c c') c /\ ((exists c', step tcell_eqb c c') \/ exists m rs, finished c m rs).
Proof.
  intros HL HP HH c H. split; [apply step_ends|]. apply (goes_on tcell_eqb tcell_eqb_ok (own ts) zeros (tree_loop e)); [apply (tree_loop_disjoint e ts ws HL)| |exact H].
  intros p Hp. apply In_nth_error in Hp as [i Hi]. destruct (tree_loop_nth e ts ws i p HL Hi) as [t [E ->]].
  destruct (tree_alone e ts ws i t HL HP HH E) as [m' [A _]]. rewrite A. exists tt. reflexivity.
Qed.
End Topology.
