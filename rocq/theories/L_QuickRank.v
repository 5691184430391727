(** Proofs about the QuickRank loader and writer (C38, C39). *)
From Coq Require Import Ascii String List ZArith Lia Bool Permutation.
From Verif Require Import Base Lists Num M_Text M_Svmlight S_Svmlight L_Text M_Dataset M_Ensemble S_Ensemble L_Ensemble L_Ensemble2 M_Loaders S_Loaders L_Loaders.
Import ListNotations.
Local Open Scope Z_scope.

(** ** Events *)
Lemma events_eq tag attrs txt kids : events (Elem tag attrs txt kids) =
  EStart (Elem tag attrs txt kids) :: flat_map events kids ++ [EEnd (Elem tag attrs txt kids)].
Proof.
  reflexivity.
Qed.
Definition ev_elem (ev : event) : xml := match ev with EStart x | EEnd x => x end.
Section XmlInd.
Variable P : xml -> Prop.
Hypothesis H : forall tag attrs txt kids, Forall P kids -> P (Elem tag attrs txt kids).
Fixpoint xml_ind2 (x : xml) : P x :=
  match x with
  | Elem tag attrs txt kids =>
      H tag attrs txt kids ((fix all (l : list xml) : Forall P l :=
        match l with [] => Forall_nil P | k :: r => Forall_cons k (xml_ind2 k) (all r) end) kids)
  end.
End XmlInd.
Lemma quiet_eq tags tag attrs txt kids : quiet tags (Elem tag attrs txt kids) <-> ~ In tag tags /\ Forall (quiet tags) kids.
Proof.
  cbn [quiet]. apply and_iff_compat_l. induction kids as [|k r IH]; split; intros K; auto.
  - constructor; [tauto|]. apply IH. tauto.
  - inversion K; subst. split; auto. apply IH. auto.
Qed.
Lemma quiet_events tags x : quiet tags x -> Forall (fun ev => ~ In (x_tag (ev_elem ev)) tags) (events x).
Proof.
  induction x as [tag attrs txt kids IH] using xml_ind2. intros Q. apply quiet_eq in Q. destruct Q as [Q1 Q2].
  rewrite events_eq. constructor; [exact Q1|]. apply Forall_app. split; [|constructor; auto].
  apply Forall_flat_map. rewrite Forall_forall in IH, Q2 |- *. auto.
Qed.
Lemma foldM_id {A B} (f : B -> A -> res B) l b : Forall (fun x => forall s, f s x = Ok s) l -> foldM f l b = Ok b.
Proof. induction 1 as [|x l H _ IH]; cbn [foldM]; auto. rewrite H. exact IH. Qed.
Lemma fold_id {A B} (f : B -> A -> B) l b : Forall (fun x => forall s, f s x = s) l -> fold_left f l b = b.
Proof. induction 1 as [|x l H _ IH]; cbn [fold_left]; auto. rewrite H. exact IH. Qed.
Lemma has_tag_not tag x tags : ~ In (x_tag x) tags -> In tag tags -> has_tag tag x = false.
Proof. intros H1 H2. unfold has_tag. apply String.eqb_neq. intros E. congruence. Qed.

Lemma lsum_cons x l : list_sum (x :: l) = (x + list_sum l)%nat.
Proof. reflexivity. Qed.

Section Quick.
Context {N : num}.
Variable rd : text -> option N.
Notation cell := (cell_of rd).
Notation conv := (convert cell cell).

Lemma read_cell_ok t : readable rd t -> read_cell rd t = Ok (cell t).
Proof. intros [v E]. unfold read_cell, cell_of. rewrite E. reflexivity. Qed.

Lemma quiet_step ev : ~ In (x_tag (ev_elem ev)) quick_tags -> forall s, quick_step rd s ev = Ok s.
Proof.
  intros H s. unfold quick_step. destruct ev; cbn [ev_elem] in H;
    repeat (erewrite (has_tag_not _ _ _ H) by (cbn; tauto)); reflexivity.
Qed.

(** ** Counting *)
Definition cstep (c : Z * Z) (ev : event) : Z * Z :=
  match ev with
  | EEnd k => if has_tag "tree" k then (fst c + 1, snd c)
              else if has_tag "feature" k || has_tag "output" k then (fst c, snd c + 1) else c
  | EStart _ => c
  end.
Lemma count_ends l : forall c, fold_left cstep (filter is_end l) c = fold_left cstep l c.
Proof. induction l as [|ev l IH]; intros c; auto. destruct ev; cbn [filter is_end fold_left]; rewrite IH; reflexivity. Qed.
Lemma count_quiet ev : ~ In (x_tag (ev_elem ev)) quick_tags -> forall c, cstep c ev = c.
Proof.
  intros H c. unfold cstep. destruct ev; cbn [ev_elem] in H; auto.
  repeat (erewrite (has_tag_not _ _ _ H) by (cbn; tauto)). reflexivity.
Qed.
Lemma count_split t x : split_xml t x -> forall a b, fold_left cstep (events x) (a, b) = (a, b + Z.of_nat (size t)).
Proof.
  induction 1 as [v attrs txt a s P W|f thr l r attrs txt a sf tf b st xl xr P1 I P2 W Hl IHl Hr IHr E1 E2]; intros m k.
  - cbn. f_equal.
  - rewrite events_eq. cbn [flat_map app fold_left cstep]. rewrite app_nil_r, !fold_left_app.
    cbn. rewrite IHl, IHr. cbn. f_equal. lia.
Qed.
Lemma count_trees wts xs : Forall2 tree_xml wts xs -> forall a b,
  fold_left cstep (flat_map events xs) (a, b) =
  (a + Z.of_nat (length wts), b + Z.of_nat (list_sum (map (fun p => size (snd p)) wts))).
Proof.
  induction 1 as [|p x wts xs H _ IH]; intros a b.
  - cbn. f_equal; lia.
  - cbn [flat_map length map list_sum fold_right]. rewrite fold_left_app. inversion H; subst. rewrite events_eq.
    cbn [flat_map]. rewrite app_nil_r. cbn [fold_left cstep]. rewrite fold_left_app.
    match goal with K : split_xml _ _ |- _ => rewrite (count_split _ _ K) end. cbn [fold_left cstep has_tag x_tag String.eqb Ascii.eqb eqb fst snd].
    rewrite IH. change (fold_right Nat.add 0%nat ?l) with (list_sum l). f_equal; lia.
Qed.
Lemma events_nonempty x : filter is_end (events x) <> [].
Proof. destruct x as [tag attrs txt kids]. rewrite events_eq. cbn [filter is_end]. rewrite filter_app. destruct (filter is_end _); discriminate. Qed.
Lemma tl_app {A} (a b : list A) : a <> [] -> tl (a ++ b) = tl a ++ b.
Proof. destruct a; [congruence|reflexivity]. Qed.

Lemma quick_count_ok wts x : quick_doc wts x ->
  quick_count x = (Z.of_nat (length wts), Z.of_nat (list_sum (map (fun p => size (snd p)) wts))).
Proof.
  intros [tag attrs txt heads eattrs etxt xs tails H1 H2 H3 H4 H5]. unfold quick_count.
  change (fold_left _ ?l (0, 0)) with (fold_left cstep l (0, 0)).
  rewrite events_eq. cbn [filter is_end]. rewrite flat_map_app, flat_map_app. rewrite !filter_app.
  rewrite <- !app_assoc. rewrite tl_app.
  2:{ destruct heads as [|h heads]; [congruence|]. cbn [flat_map]. rewrite filter_app.
      pose proof (events_nonempty h). destruct (filter is_end (events h)); [congruence|discriminate]. }
  rewrite !fold_left_app, !count_ends.
  rewrite (fold_id cstep [EEnd _]) by (constructor; [apply count_quiet; exact H1|constructor]).
  assert (Q : forall l, Forall (quiet quick_tags) l -> Forall (fun ev => forall c, cstep c ev = c) (flat_map events l)).
  { intros l K. apply Forall_flat_map. eapply Forall_impl; [|exact K]. intros y Hy. apply quiet_events in Hy.
    eapply Forall_impl; [|exact Hy]. intros ev. apply count_quiet. }
  rewrite (fold_id _ (tl _)).
  2:{ pose proof (Q heads H3) as Qh. apply Forall_forall. rewrite Forall_forall in Qh. intros ev K. apply Qh.
      assert (In ev (filter is_end (flat_map events heads))) as K'.
      { destruct (filter is_end (flat_map events heads)); [destruct K|right; exact K]. }
      apply filter_In in K'. tauto. }
  cbn [flat_map]. rewrite app_nil_r, events_eq. cbn [fold_left cstep]. rewrite fold_left_app.
  rewrite (count_trees _ _ H5). cbn [fold_left cstep].
  rewrite (fold_id _ (flat_map events tails)) by (apply Q; assumption).
  change (has_tag "tree" (Elem "ensemble" eattrs etxt xs)) with false. change (has_tag "feature" (Elem "ensemble" eattrs etxt xs)) with false.
  change (has_tag "output" (Elem "ensemble" eattrs etxt xs)) with false.
  cbn [orb]. f_equal; lia.
Qed.

(** ** Loading one tree *)
Lemma quick_body t x : split_xml t x -> Forall (readable rd) (values t) -> fits16 t ->
  forall n e tr c st, sized n e -> 0 <= c -> c + Z.of_nat (size t) <= n -> blank c (c + Z.of_nat (size t)) e ->
  exists e', foldM (quick_step rd) (tl (events x)) (mkQ e tr c (c :: st)) =
             Ok (mkQ e' tr (c + Z.of_nat (size t) - 1) st) /\
             frame c (c + Z.of_nat (size t)) e e' /\ represents e' (preorder c (conv t)).
Proof.
  induction 1 as [v attrs txt a s P W|f thr l r attrs txt a sf tf b st' xl xr P1 I P2 W Hl IHl Hr IHr E1 E2];
    intros RV FT n e tr c st SZ Hc Hn BL.
  - cbn [values] in RV. inversion RV; subst. cbn [size] in *.
    destruct (set_value_ok n e c (cell v) SZ) as (e1 & S1 & S2 & S3 & S4 & S5 & S6); [lia|].
    exists e1. split.
    + cbn [events tl app foldM quick_step has_tag x_tag String.eqb Ascii.eqb eqb bind orb x_text text_of of_option q_ens q_tree q_node q_stack].
      rewrite (py_strip_word s v P W), read_cell_ok by assumption. cbn [bind].
      rewrite S1. cbn [bind q_stack q_ens q_tree q_node]. do 2 f_equal. lia.
    + split.
      * replace (c + Z.of_nat 1) with (c + 1) by lia.
        apply set_frame; auto; try (intros j Hj; rewrite ?S4, ?S5, ?S6; reflexivity).
        intros j Hj. rewrite S3. destruct (Z.eqb_spec c j); [lia|reflexivity].
      * cbn [convert preorder represents]. destruct (BL c) as (B1 & B2 & B3); [lia|].
        rewrite S4, S5, S6, S3, Z.eqb_refl. auto.
  - cbn [values] in RV. inversion RV as [|? ? RT RV']; subst. apply Forall_app in RV'. destruct RV' as [RL RR].
    unfold fits16 in FT. cbn [splits] in FT. inversion FT as [|? ? FF FT']; subst. apply Forall_app in FT'. destruct FT' as [FL FR].
    cbn [size] in *. rewrite !Nat2Z.inj_add in *. set (sl := Z.of_nat (size l)) in *. set (sr := Z.of_nat (size r)) in *.
    assert (Hsl : 1 <= sl) by (pose proof (size_pos' l); lia).
    assert (Hsr : 1 <= sr) by (pose proof (size_pos' r); lia).
    change (Z.of_nat 1) with 1 in *.
    destruct (set_feature_ok n e c (f + 1 - 1) SZ) as (e1 & A1 & A2 & A3 & A4 & A5 & A6); [lia|].
    pose proof (sized_nodes n e e1 A2 SZ) as SZ1.
    destruct (set_value_ok n e1 c (cell thr) SZ1) as (e2 & B1 & B2 & B3 & B4 & B5 & B6); [lia|].
    pose proof (sized_nodes n e1 e2 B2 SZ1) as SZ2.
    destruct (set_left_ok n e2 c (c + 1) SZ2) as (e3 & C1 & C2 & C3 & C4 & C5 & C6); [lia|].
    pose proof (sized_nodes n e2 e3 C2 SZ2) as SZ3.
    assert (F1 : frame c (c + 1) e e3).
    { apply set_frame.
      - eapply nodes_trans; [exact A2|]. eapply nodes_trans; [exact B2|exact C2].
      - intros j Hj. rewrite C3. destruct (Z.eqb_spec c j); [lia|]. rewrite B4, A4. reflexivity.
      - intros j Hj. rewrite C4, B5, A5. reflexivity.
      - intros j Hj. rewrite C5, B6, A3. destruct (Z.eqb_spec c j); [lia|reflexivity].
      - intros j Hj. rewrite C6, B3. destruct (Z.eqb_spec c j); [lia|]. rewrite A6. reflexivity. }
    destruct (IHl RL FL n e3 tr (c + 1) (c :: st)) as (e4 & D1 & D2 & D3); try assumption; try lia.
    { eapply blank_frame; [exact F1| |]; [eapply blank_sub; [exact BL| |]; fold sl; lia|intros; lia]. }
    fold sl in D1, D2.
    assert (SZ4 : sized n e4) by (eapply sized_nodes; [apply D2|exact SZ3]).
    destruct (set_right_ok n e4 c (c + 1 + sl) SZ4) as (e5 & G1 & G2 & G3 & G4 & G5 & G6); [lia|].
    pose proof (sized_nodes n e4 e5 G2 SZ4) as SZ5.
    assert (F2 : frame c (c + 1) e4 e5).
    { apply set_frame; auto; try (intros j Hj; rewrite ?G4, ?G5, ?G6; reflexivity).
      intros j Hj. rewrite G3. destruct (Z.eqb_spec c j); [lia|reflexivity]. }
    assert (F3 : frame c (c + 1 + sl) e e5).
    { eapply frame_trans; [eapply frame_widen; [| |exact F1]; lia|].
      eapply frame_trans; [eapply frame_widen; [| |exact D2]; lia|]. eapply frame_widen; [| |exact F2]; lia. }
    destruct (IHr RR FR n e5 tr (c + 1 + sl) (c :: st)) as (e6 & K1 & K2 & K3); try assumption; try lia.
    { eapply blank_frame; [exact F3| |]; [eapply blank_sub; [exact BL| |]; fold sr; lia|intros; lia]. }
    fold sr in K1, K2.
    exists e6. split; [|split].
    + rewrite events_eq. cbn [tl flat_map]. rewrite app_nil_r.
      cbn [events app foldM quick_step has_tag x_tag String.eqb Ascii.eqb eqb bind orb x_text text_of of_option q_ens q_tree q_node q_stack].
      rewrite (py_int_strip sf tf (f + 1) P1 I). cbn [bind]. rewrite A1. cbn [bind].
      cbn [foldM quick_step has_tag x_tag String.eqb Ascii.eqb eqb bind orb x_text text_of of_option q_ens q_tree q_node q_stack].
      rewrite (py_strip_word st' thr P2 W), read_cell_ok by assumption. cbn [bind]. rewrite B1. cbn [bind].
      assert (XL : exists al tl' kl, xl = Elem "split" al tl' kl) by (inversion Hl; subst; do 3 eexists; reflexivity).
      assert (XR : exists al tl' kl, xr = Elem "split" al tl' kl) by (inversion Hr; subst; do 3 eexists; reflexivity).
      destruct XL as (al & txl & kl & ->). destruct XR as (ar & txr & kr & ->).
      rewrite !events_eq in *. cbn [tl] in D1, K1. cbn [x_attrs] in E1, E2.
      rewrite !foldM_app. cbn [app foldM].
      cbn [quick_step has_tag x_tag String.eqb Ascii.eqb eqb bind q_ens q_tree q_node q_stack x_attrs].
      rewrite E1. change (if list_eq_dec ascii_dec (lit "left") (lit "left") then ?u else ?v) with u.
      cbn [bind]. rewrite C1. cbn [bind].
      rewrite D1. cbn [bind app foldM].
      cbn [quick_step has_tag x_tag String.eqb Ascii.eqb eqb bind q_ens q_tree q_node q_stack x_attrs].
      rewrite E2. change (if list_eq_dec ascii_dec (lit "right") (lit "left") then ?u else ?v) with v.
      replace (c + 1 + sl - 1 + 1) with (c + 1 + sl) by lia. rewrite G1. cbn [bind].
      rewrite K1. cbn [bind foldM].
      cbn [quick_step has_tag x_tag String.eqb Ascii.eqb eqb bind q_ens q_tree q_node q_stack x_attrs].
      do 2 f_equal. lia.
    + eapply frame_trans; [eapply frame_widen; [| |exact F3]; lia|]. eapply frame_widen; [| |exact K2]; lia.
    + cbn [convert preorder represents]. rewrite !mark_preorder, size_convert. fold sl.
      destruct D2 as [_ D2]. destruct K2 as [_ K2]. destruct F2 as [_ F2].
      destruct (D2 c) as (U1 & U2 & U3 & U4); [lia|].
      destruct (K2 c) as (V1 & V2 & V3 & V4); [lia|].
      split; [rewrite V1, G4, U1, C3, Z.eqb_refl; reflexivity|].
      split; [rewrite V2, G3, Z.eqb_refl; reflexivity|].
      split; [rewrite V3, G5, U3, C5, B6, A3, Z.eqb_refl; f_equal; rewrite i16_id; [lia|replace (f + 1 - 1) with f by lia; exact FF]|].
      split; [rewrite V4, G6, U4, C6, B3, Z.eqb_refl; reflexivity|]. split; [|exact K3].
      eapply represents_same; [exact D3|]. intros j Hj. rewrite marks_preorder, size_convert in Hj. apply in_zrange in Hj.
      fold sl in Hj. eapply same_trans; [apply F2; lia|apply K2; lia].
Qed.

(** ** Loading the ensemble *)
Lemma set_root_ok (e : ensemble N) k v : (k < length (e_root e))%nat -> set_root e (Z.of_nat k) v =
  Ok (mkEns (e_ntrees e) (e_nnodes e) (upd (e_root e) k v) (e_weight e) (e_left e) (e_right e) (e_value e) (e_feature e)).
Proof. intros H. unfold set_root. rewrite py_set_in by lia. rewrite Nat2Z.id. reflexivity. Qed.
Lemma set_weight_ok (e : ensemble N) k v : (k < length (e_weight e))%nat -> set_weight e (Z.of_nat k) v =
  Ok (mkEns (e_ntrees e) (e_nnodes e) (e_root e) (upd (e_weight e) k v) (e_left e) (e_right e) (e_value e) (e_feature e)).
Proof. intros H. unfold set_weight. rewrite py_set_in by lia. rewrite Nat2Z.id. reflexivity. Qed.

Definition good (p : text * tree unit text) : Prop :=
  readable rd (fst p) /\ Forall (readable rd) (values (snd p)) /\ fits16 (snd p).

Lemma quick_trees wts xs : Forall2 tree_xml wts xs -> Forall good wts ->
  forall k a e, sized (Z.of_nat (length (e_left e))) e -> 0 <= a ->
  a + Z.of_nat (list_sum (map (fun p => size (snd p)) wts)) <= Z.of_nat (length (e_left e)) -> blank_from a e ->
  (k + length wts <= length (e_root e))%nat -> (k + length wts <= length (e_weight e))%nat ->
  exists e', foldM (quick_step rd) (flat_map events xs) (mkQ e (Z.of_nat k - 1) (a - 1) []) =
    Ok (mkQ e' (Z.of_nat (k + length wts) - 1) (a + Z.of_nat (list_sum (map (fun p => size (snd p)) wts)) - 1) []) /\
    chain k a e (preorder_all a (map (fun p => conv (snd p)) wts)) (map (fun p => cell (fst p)) wts) e'.
Proof.
  induction 1 as [|p x wts xs H _ IH]; intros G k a e SZ Ha Hn BL HR HW.
  - exists e. cbn [flat_map foldM map list_sum fold_right length preorder_all].
    rewrite Nat.add_0_r, Z.add_0_r. split; [reflexivity|constructor].
  - inversion G as [|? ? G1 G2]; subst. clear G. inversion H as [w t attrs txt y E1 E2 E3]; subst. clear H.
    cbn [fst snd map length preorder_all] in *. rewrite !lsum_cons in *.
    destruct G1 as (R1 & R2 & R3). cbn [fst snd] in *.
    set (st := Z.of_nat (size t)) in *.
    rewrite Nat2Z.inj_add in Hn. fold st in Hn.
    set (e2 := mkEns (e_ntrees e) (e_nnodes e) (upd (e_root e) k a) (upd (e_weight e) k (cell w)) (e_left e) (e_right e) (e_value e) (e_feature e)).
    destruct (quick_body t y E2 R2 R3 (Z.of_nat (length (e_left e))) e2 (Z.of_nat k) a []) as (e3 & B1 & B2 & B3); try assumption.
    { fold st. lia. }
    { intros j Hj. fold st in Hj. assert (Hr : a <= j < Z.of_nat (length (e_left e))) by lia. exact (BL j Hr). }
    assert (TD : tree_done k a e e3 (preorder a (conv t)) (cell w)).
    { destruct B2 as [(M1 & M2 & M3 & M4 & M5 & M6 & M7 & M8) M9].
      unfold tree_done. rewrite size_preorder, size_convert, mark_preorder, marks_preorder, size_convert.
      repeat (split; [assumption|]). split; [reflexivity|apply Permutation_refl]. }
    destruct (IH G2 (S k) (a + st) e3) as (e4 & I1 & I2).
    { eapply done_sized; [exact TD|]. destruct TD as (_ & _ & _ & _ & L & _). rewrite L. exact SZ. }
    { lia. }
    { destruct TD as (_ & _ & _ & _ & L & _). rewrite L. lia. }
    { pose proof (done_blank _ _ _ _ _ _ TD BL) as K. rewrite size_preorder, size_convert in K. exact K. }
    { destruct TD as (_ & _ & L & _). rewrite L, upd_length. lia. }
    { destruct TD as (_ & _ & _ & L & _). rewrite L, upd_length. lia. }
    exists e4. split.
    + cbn [flat_map]. rewrite events_eq. cbn [flat_map]. rewrite app_nil_r.
      assert (Y : exists ay ty ky, y = Elem "split" ay ty ky) by (inversion E2; subst; do 3 eexists; reflexivity).
      destruct Y as (ay & ty & ky & ->). rewrite events_eq in *. cbn [tl] in B1. cbn [x_attrs] in E3.
      rewrite foldM_app. cbn [app foldM].
      cbn [quick_step has_tag x_tag String.eqb Ascii.eqb eqb bind q_ens q_tree q_node q_stack x_attrs].
      replace (Z.of_nat k - 1 + 1) with (Z.of_nat k) by lia. replace (a - 1 + 1) with a by lia.
      rewrite set_root_ok by lia. cbn [bind]. rewrite E1. cbn [of_option bind].
      rewrite read_cell_ok by assumption. cbn [bind].
      rewrite set_weight_ok by (cbn [e_weight]; lia). cbn [bind e_ntrees e_nnodes e_root e_weight e_left e_right e_value e_feature].
      cbn [quick_step has_tag x_tag String.eqb Ascii.eqb eqb bind q_ens q_tree q_node q_stack x_attrs].
      rewrite E3. cbn [bind]. fold e2. rewrite foldM_app, B1. cbn [bind foldM].
      cbn [quick_step has_tag x_tag String.eqb Ascii.eqb eqb bind q_ens q_tree q_node q_stack x_attrs orb].
      replace (Z.of_nat (S k) - 1) with (Z.of_nat k) in I1 by lia. fold st. rewrite I1. do 2 f_equal; lia.
    + econstructor; [exact TD|]. rewrite size_preorder, size_convert. exact I2.
Qed.

Lemma total_preorder {A V} (ts : list (tree A V)) : forall i, list_sum (map size (preorder_all i ts)) = list_sum (map size ts).
Proof. induction ts as [|t ts IH]; intros i; cbn [preorder_all map list_sum fold_right]; auto. rewrite size_preorder. f_equal. apply IH. Qed.
Lemma total_conv wts : list_sum (map size (map (fun p : text * tree unit text => conv (snd p)) wts)) = list_sum (map (fun p => size (snd p)) wts).
Proof. rewrite map_map. f_equal. apply map_ext. intros; apply size_convert. Qed.

Theorem C38_lemma wts x : quick_doc wts x -> Forall good wts ->
  exists e, quick_load rd x = Ok e /\
    laid_out e (preorder_all 0 (map (fun p => conv (snd p)) wts)) (map (fun p => cell (fst p)) wts).
Proof.
  intros D G. unfold quick_load. rewrite (quick_count_ok wts x D).
  destruct (initialize_ok (N:=N) (length wts) (list_sum (map (fun p => size (snd p)) wts)))
    as (e0 & I1 & I2 & I3 & I4 & I5 & I6 & I7 & I8).
  rewrite I1. cbn [bind].
  destruct D as [tag attrs txt heads eattrs etxt xs tails H1 H2 H3 H4 H5].
  assert (Q : forall l, Forall (quiet quick_tags) l -> Forall (fun ev => forall s, quick_step rd s ev = Ok s) (flat_map events l)).
  { intros l K. apply Forall_flat_map. eapply Forall_impl; [|exact K]. intros y Hy. apply quiet_events in Hy.
    eapply Forall_impl; [|exact Hy]. intros ev. apply quiet_step. }
  destruct (quick_trees wts xs H5 G 0 0 e0) as (e1 & C1 & C2).
  { rewrite I6. exact I7. } { lia. } { lia. } { exact I8. }
  { rewrite I4, repeat_length. lia. } { rewrite I5, repeat_length. lia. }
  exists e1. split.
  - assert (M : foldM (quick_step rd) (events (Elem "ensemble" eattrs etxt xs)) (mkQ e0 (-1) (-1) []) =
                Ok (mkQ e1 (Z.of_nat (0 + length wts) - 1) (0 + Z.of_nat (list_sum (map (fun p => size (snd p)) wts)) - 1) [])).
    { rewrite events_eq. cbn [foldM].
      cbn [quick_step has_tag x_tag String.eqb Ascii.eqb eqb bind]. rewrite foldM_app.
      change (Z.of_nat 0 - 1) with (-1) in C1. change (0 - 1) with (-1) in C1. rewrite C1. reflexivity. }
    rewrite events_eq. cbn [tl]. rewrite !flat_map_app. rewrite !foldM_app.
    rewrite (foldM_id _ (flat_map events heads)) by (apply Q; assumption). cbn [bind].
    cbn [flat_map]. rewrite app_nil_r, foldM_app, M. cbn [bind].
    rewrite (foldM_id _ (flat_map events tails)) by (apply Q; assumption). cbn [bind].
    rewrite (foldM_id _ [EEnd _]) by (constructor; [apply quiet_step; exact H1|constructor]). reflexivity.
  - eapply chain_laid_out; [exact C2| | | | |].
    + rewrite length_all, map_length. exact I2.
    + unfold total_size. rewrite total_preorder, total_conv. exact I3.
    + rewrite length_all, map_length. exact I4.
    + rewrite length_all, map_length. exact I5.
    + unfold total_size. rewrite total_preorder, total_conv. exact I7.
Qed.
End Quick.

(** ** Saving *)
Section Save.
Context {N : num}.
Variable rd : text -> option N.
Variable repr : N -> text.
Notation cell := (cell_of rd).

Lemma quick_node_ok e t : represents e t -> Forall (fun v => word (repr v)) (values t) ->
  forall fuel child, (height t < fuel)%nat -> exists x, quick_node repr fuel e (mark t) child = Ok x /\
    split_xml (convert repr repr (erase t)) x /\ attr "pos" (x_attrs x) = option_map lit child.
Proof.
  induction t as [i v|i f thr l IHl r IHr]; intros R W fuel child H; destruct fuel as [|fuel]; try (cbn in H; lia).
  - cbn [represents] in R. destruct R as (R1 & R2 & R3 & R4). cbn [quick_node mark]. unfold is_leaf_node.
    rewrite (py_get_zget _ _ _ R1), (py_get_zget _ _ _ R2), (py_get_zget _ _ _ R4). cbn [bind Z.eqb Pos.eqb].
    eexists. split; [reflexivity|]. split.
    + cbn [erase convert]. constructor; [apply padded_refl|]. inversion W; auto.
    + destruct child; reflexivity.
  - cbn [represents] in R. destruct R as (R1 & R2 & R3 & R4 & R5 & R6). cbn [values] in W. inversion W as [|? ? W1 W2]; subst.
    apply Forall_app in W2. destruct W2 as [WL WR]. cbn [height] in H.
    destruct (IHl R5 WL fuel (Some "left"%string)) as (xl & A1 & A2 & A3); [lia|].
    destruct (IHr R6 WR fuel (Some "right"%string)) as (xr & B1 & B2 & B3); [lia|].
    cbn [quick_node mark]. unfold is_leaf_node.
    rewrite (py_get_zget _ _ _ R1), (py_get_zget _ _ _ R2), (py_get_zget _ _ _ R3), (py_get_zget _ _ _ R4).
    pose proof (rep_range e l R5) as RL. cbn [bind].
    destruct (Z.eqb_spec (mark l) (-1)); [lia|]. cbn [bind]. rewrite A1. cbn [bind]. rewrite B1. cbn [bind].
    eexists. split; [reflexivity|]. split.
    + cbn [erase convert]. unfold leaf_elem. econstructor; eauto using padded_refl, show_Z_dec.
    + destruct child; reflexivity.
Qed.

Lemma height_erase {A V} (t : tree A V) : height (erase t) = height t.
Proof. induction t; cbn; auto. Qed.
Lemma preorder_erase {A V} (t : tree A V) : forall i, preorder i (erase t) = preorder i t.
Proof.
  assert (S : forall u : tree A V, size (erase u) = size u) by (induction u; cbn; auto).
  induction t as [a v|a f x l IHl r IHr]; intros i; cbn [erase preorder]; auto. rewrite S, IHl, IHr. reflexivity.
Qed.
Lemma preorder_all_erase {A V} (ts : list (tree A V)) : forall i, preorder_all i (map erase ts) = preorder_all i ts.
Proof.
  assert (S : forall u : tree A V, size (erase u) = size u) by (induction u; cbn; auto).
  induction ts as [|t ts IH]; intros i; cbn [map preorder_all]; auto. rewrite preorder_erase, S, IH. reflexivity.
Qed.
Lemma convert_id {A V W} (h k : V -> W) (h' k' : W -> V) (t : tree A V) :
  (forall v, In v (values t) -> h' (h v) = v /\ k' (k v) = v) -> convert h' k' (convert h k t) = t.
Proof.
  induction t as [a v|a f x l IHl r IHr]; intros H; cbn [convert values] in *.
  - f_equal. apply H. left; auto.
  - f_equal; [apply H; left; auto| |]; [apply IHl|apply IHr]; intros u Hu; apply H; right; apply in_or_app; auto.
Qed.
Lemma values_erase {A V} (t : tree A V) : values (erase t) = values t.
Proof. induction t; cbn; congruence. Qed.
Lemma values_convert {A V W} (h : V -> W) (t : tree A V) : values (convert h h t) = map h (values t).
Proof. induction t; cbn; auto. rewrite map_app. congruence. Qed.
Lemma splits_erase {A V} (t : tree A V) : splits (erase t) = splits t.
Proof. induction t; cbn; congruence. Qed.

Lemma max_leaves_ok (e : ensemble N) ts ws : encodes e ts ws -> ts <> [] -> exists ml, max_leaves e = Ok ml.
Proof.
  intros (E1 & E2 & E3 & E4 & E5) NE. unfold max_leaves, num_leaves.
  destruct (Z.ltb_spec (e_ntrees e) 0); [lia|].
  assert (T : forall t, In t (zrange 0 (e_ntrees e)) -> exists ab, tree_bounds e t = Ok ab).
  { intros t Ht. apply in_zrange in Ht. unfold tree_bounds.
    destruct (@zget_in_bounds _ (e_root e) t) as [a Ea]; [rewrite E2, map_length; lia|].
    rewrite (py_get_zget _ _ _ Ea). cbn [bind]. destruct (Z.eqb_spec (t + 1) (e_ntrees e)).
    - cbn [bind]. eexists; reflexivity.
    - destruct (@zget_in_bounds _ (e_root e) (t + 1)) as [b Eb]; [rewrite E2, map_length; lia|].
      rewrite (py_get_zget _ _ _ Eb). cbn [bind]. eexists; reflexivity. }
  assert (M : forall l, (forall t, In t l -> exists ab, tree_bounds e t = Ok ab) ->
    exists r, mapM (fun t => do ab <- tree_bounds e t;
      Ok (Z.of_nat (length (filter (fun l => l =? -1) (slice (fst ab) (snd ab) (e_left e)))))) l = Ok r /\ length r = length l).
  { induction l as [|t l IH]; intros K; [exists []; auto|]. destruct (K t (or_introl eq_refl)) as [ab Eab].
    destruct IH as (r & Er & Lr); [intros; apply K; right; auto|].
    cbn [mapM]. rewrite Eab. cbn [bind]. rewrite Er. cbn [bind]. eexists; split; [reflexivity|]. cbn. lia. }
  destruct (M _ T) as (r & Er & Lr). rewrite Er. cbn [bind].
  destruct r as [|y r]; [|eexists; reflexivity].
  rewrite zrange_length, E1 in Lr. destruct ts; [congruence|]. cbn [length] in Lr. lia.
Qed.

(** What printing must satisfy: a word that reads back, once stored, as the same value. *)
Definition reads_back (v : N) : Prop := word (repr v) /\ readable rd (repr v) /\ cell (repr v) = v.

Lemma quick_save_ok (m : model N) ts ws : encodes (m_ens m) ts ws -> ts <> [] ->
  (forall t v, In t ts -> In v (values t) -> word (repr v)) ->
  exists x, quick_save repr m = Ok x /\
    quick_doc (combine (map repr ws) (map (fun t => convert repr repr (erase t)) ts)) x.
Proof.
  intros E NE W. unfold quick_save. destruct (max_leaves_ok _ _ _ E NE) as [ml ->]. cbn [bind].
  destruct E as (E1 & E2 & E3 & E4 & E5).
  assert (M : forall ts' ws' k, length ws' = length ts' ->
    (forall i t, nth_error ts' i = Some t -> nth_error ts (k + i) = Some t) ->
    (forall i w, nth_error ws' i = Some w -> nth_error ws (k + i) = Some w) ->
    exists xs, mapM (fun t => do w <- py_get (e_weight (m_ens m)) t;
                             do r <- py_get (e_root (m_ens m)) t;
                             do x <- quick_node repr (S (length (e_left (m_ens m)))) (m_ens m) r None;
                             Ok (Elem "tree" [("id"%string, show_Z (t + 1)); ("weight"%string, repr w)] None [x]))
                   (map Z.of_nat (seq k (length ts'))) = Ok xs /\
      Forall2 tree_xml (combine (map repr ws') (map (fun t => convert repr repr (erase t)) ts')) xs).
  { induction ts' as [|t ts' IH]; intros ws' k L HT HW; destruct ws' as [|w ws']; try discriminate.
    - exists []. split; [reflexivity|constructor].
    - cbn [length] in L. destruct (IH ws' (S k)) as (xs & X1 & X2); [lia| | |].
      { intros i u Hu. replace (S k + i)%nat with (k + S i)%nat by lia. apply HT. exact Hu. }
      { intros i u Hu. replace (S k + i)%nat with (k + S i)%nat by lia. apply HW. exact Hu. }
      pose proof (HT 0%nat t eq_refl) as T0. pose proof (HW 0%nat w eq_refl) as W0. rewrite Nat.add_0_r in T0, W0.
      pose proof (nth_error_In _ _ T0) as I0. rewrite Forall_forall in E5.
      destruct (quick_node_ok (m_ens m) t (E5 t I0) ltac:(apply Forall_forall; intros v Hv; eapply W; eauto)
                  (S (length (e_left (m_ens m)))) None) as (x & Q1 & Q2 & Q3).
      { pose proof (height_bound _ _ (E5 t I0)). lia. }
      cbn [length seq map mapM].
      rewrite (py_get_zget (e_weight (m_ens m)) (Z.of_nat k) w) by (rewrite E3, zget_nth; exact W0). cbn [bind].
      rewrite (py_get_zget (e_root (m_ens m)) (Z.of_nat k) (mark t)) by (rewrite E2, zget_nth, nth_error_map', T0; reflexivity).
      cbn [bind]. rewrite Q1. cbn [bind]. rewrite X1. cbn [bind].
      eexists. split; [reflexivity|]. cbn [map combine]. constructor; [|exact X2].
      constructor; [reflexivity|exact Q2|exact Q3]. }
  destruct (M ts ws 0%nat E4) as (xs & X1 & X2); [auto|auto|].
  rewrite E1, zrange_seq, X1. cbn [bind].
  eexists. split; [reflexivity|]. apply (quick_root _ "ranker" [] None
    [Elem "info" [] None
           [leaf_elem "type" (lit "MART"); leaf_elem "trees" (show_Z (Z.of_nat (length ts)));
            leaf_elem "leaves" (show_Z ml); leaf_elem "shrinkage" (repr (m_lr m));
            leaf_elem "leafsupport" (lit "0"); leaf_elem "discretization" (lit "0"); leaf_elem "estop" (lit "0")]]
    [] None xs []); [|discriminate| |constructor|exact X2].
  - cbn. intuition discriminate.
  - constructor; [|constructor]. cbn. repeat (split; [intuition discriminate|]). intuition discriminate.
Qed.

Theorem C39_lemma (m : model N) ts ws : encodes (m_ens m) ts ws -> ts <> [] ->
  (forall t v, In t ts -> In v (values t) -> reads_back v) -> Forall reads_back ws -> Forall fits16 ts ->
  exists x e', quick_save repr m = Ok x /\ quick_load rd x = Ok e' /\ laid_out e' (preorder_all 0 ts) ws.
Proof.
  intros E NE RV RW FT. destruct (quick_save_ok m ts ws E NE) as (x & X1 & X2); [intros; eapply RV; eauto|].
  assert (L : length ws = length ts) by apply E.
  destruct (C38_lemma rd _ x X2) as (e' & Y1 & Y2).
  { apply Forall_forall. intros [w t] H. pose proof (in_combine_l _ _ _ _ H) as H1. pose proof (in_combine_r _ _ _ _ H) as H2.
    apply in_map_iff in H1. destruct H1 as (w0 & <- & H1). apply in_map_iff in H2. destruct H2 as (t0 & <- & H2).
    rewrite Forall_forall in RW, FT. unfold good. cbn [fst snd]. split; [apply RW; auto|]. split.
    - rewrite values_convert, values_erase. apply Forall_forall. intros s Hs. apply in_map_iff in Hs.
      destruct Hs as (v & <- & Hv). eapply RV; eauto.
    - unfold fits16. rewrite splits_convert, splits_erase. apply FT; auto. }
  exists x, e'. split; [exact X1|]. split; [exact Y1|].
  match type of Y2 with laid_out _ (preorder_all 0 ?a) ?b => assert (A : a = map erase ts); [|assert (B : b = ws)] end.
  - clear - L RV. revert ws L. induction ts as [|t ts IH]; intros [|w ws] L; try discriminate; auto.
    cbn [map combine snd]. f_equal.
    + apply convert_id. intros v Hv. rewrite values_erase in Hv. destruct (RV t v (or_introl eq_refl) Hv) as (_ & _ & K). auto.
    + apply IH; [|cbn in L; lia]. intros t' v H1 H2. apply (RV t'); auto. right; auto.
  - clear - L RW. revert ws L RW. induction ts as [|t ts IH]; intros [|w ws] L RW; try discriminate; auto.
    inversion RW as [|? ? K1 K2]; subst. cbn [map combine fst]. f_equal; [apply K1|]. apply IH; auto.
  - rewrite A, B, preorder_all_erase in Y2. exact Y2.
Qed.

Lemma exit_erase {A} row (t : tree A N) : snd (exit_leaf row t) = snd (exit_leaf row (erase t)).
Proof. induction t as [a v|a f x l IHl r IHr]; cbn [exit_leaf erase]; auto. destruct (nleb _ _); auto. Qed.
Lemma score_erase ws (ts ts' : list (tree Z N)) row : map erase ts = map erase ts' ->
  ensemble_score ws ts row = ensemble_score ws ts' row.
Proof.
  intros H. unfold ensemble_score. f_equal. unfold tree_scores.
  revert ts ts' H. induction ws as [|w ws IH]; intros [|t ts] [|t' ts'] H; try discriminate; auto.
  cbn [map] in H. inversion H as [[H1 H2]]. cbn [combine map fst snd]. rewrite (exit_erase row t), (exit_erase row t'), H1.
  f_equal. apply IH. exact H2.
Qed.
Lemma covers_erase row (ts ts' : list (tree Z N)) : map erase ts = map erase ts' -> covers row ts -> covers row ts'.
Proof.
  revert ts'. induction ts as [|t ts IH]; intros [|t' ts'] H C; try discriminate; auto.
  cbn [map] in H. inversion H as [[H1 H2]]. inversion C; subst. constructor; [|apply IH; auto].
  rewrite <- (splits_erase t'), <- H1, splits_erase. assumption.
Qed.
Lemma same_trees_same_scores e e' (ts ts' : list (tree Z N)) ws X : encodes e ts ws -> encodes e' ts' ws ->
  map erase ts = map erase ts' -> (forall row, In row X -> covers row ts) -> basic_scoring e X = basic_scoring e' X.
Proof.
  intros E E' H C. rewrite (C31_lemma e ts ws X E C). rewrite (C31_lemma e' ts' ws X E').
  - f_equal. apply map_ext. intros row. apply score_erase. exact H.
  - intros row Hr. eapply covers_erase; eauto.
Qed.

Theorem C39_scores_lemma (m : model N) ts ws X : encodes (m_ens m) ts ws -> ts <> [] ->
  (forall t v, In t ts -> In v (values t) -> reads_back v) -> Forall reads_back ws -> Forall fits16 ts ->
  (forall row, In row X -> covers row ts) ->
  exists x e', quick_save repr m = Ok x /\ quick_load rd x = Ok e' /\ basic_scoring e' X = basic_scoring (m_ens m) X.
Proof.
  intros E NE RV RW FT C. destruct (C39_lemma m ts ws E NE RV RW FT) as (x & e' & H1 & H2 & H3).
  exists x, e'. split; auto. split; auto. symmetry. eapply same_trees_same_scores; [exact E|apply H3| |exact C].
  symmetry. apply erase_all.
Qed.

Lemma C39_empty_lemma (m : model N) ws : encodes (m_ens m) [] ws -> quick_save repr m = Err ValueError.
Proof.
  intros (E1 & _). unfold quick_save, max_leaves, num_leaves. rewrite E1. reflexivity.
Qed.
End Save.
