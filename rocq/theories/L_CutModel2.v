(** Proofs: the first lines of XGBoost and scikit-learn dumps. *)
From Coq Require Import Ascii String List ZArith Lia Bool Permutation.
From Verif Require Import Base Lists Num M_Text M_Svmlight S_Svmlight L_Text L_Svmlight3 M_Dataset M_Ensemble S_Ensemble L_Ensemble L_Ensemble2 M_Loaders M_TextLoaders S_Loaders L_Loaders L_QuickRank L_Dump L_Dump2 S_CutModel L_CutModel.
Import ListNotations.
Local Open Scope Z_scope.

(** How many nodes of each tree are there. *)
Fixpoint pieces {A V} (n : nat) (ts : list (tree A V)) : list (nat * tree A V) :=
  match n, ts with
  | S k, t :: r => (Nat.min k (size t), t) :: pieces (k - size t) r
  | _, _ => []
  end.
Definition there {A V} (n : nat) (ts : list (tree A V)) : nat := list_sum (map fst (pieces n ts)).
Lemma cut_all_of {A V} (t : tree A V) : forall k, (size t <= k)%nat -> cut_tree k t = t.
Proof.
  induction t as [a v|a f x l _ r IHr]; intros k K; cbn [cut_tree size] in *; [reflexivity|]. pose proof (size_pos r).
  destruct (Nat.leb_spec k (S (size l))); [lia|]. rewrite IHr by lia. reflexivity.
Qed.
Lemma cut_min {A V} k (t : tree A V) : cut_tree (Nat.min k (size t)) t = cut_tree k t.
Proof. destruct (Nat.le_gt_cases (size t) k); [rewrite Nat.min_r, !cut_all_of by lia; reflexivity|rewrite Nat.min_l by lia; reflexivity]. Qed.
Lemma kept_pieces {A V} (ts : list (tree A V)) : forall n, kept_trees n ts = map (fun p => cut_tree (fst p) (snd p)) (pieces n ts).
Proof. induction ts as [|t ts IH]; intros [|k]; cbn [kept_trees pieces map fst snd]; auto. rewrite cut_min, IH. reflexivity. Qed.
Lemma there_cons {A V} k (t : tree A V) r : there (S k) (t :: r) = (Nat.min k (size t) + there (k - size t) r)%nat.
Proof. reflexivity. Qed.

Section Loop.
Context {N : num}.
Variable rd : text -> option N.
Variable node : text -> option (Z * Z * text).
Variable leaf : text -> option (Z * text).
Variable number : Z -> Z -> Z -> Z.
Variable thr : text -> res N.
Variable hthr : text -> N.
Variable op : string.
Variable leaf_tail : text -> Prop.
Notation cell := (cell_of rd).
Notation step := (dump_line rd node leaf number thr).
Notation conv := (convert hthr cell).
Hypothesis node_ok : forall ind ti i tf f x tail nl,
  blanks ind -> nat_dec ti i -> nat_dec tf f -> word x -> quiet_text x -> quiet_text tail -> ~ In "]"%char tail -> eol nl ->
  let l := ind ++ ti ++ lit ":[f" ++ tf ++ lit op ++ x ++ lit "]" ++ tail ++ nl in
  node l = Some (i, f, x) /\ leaf l = None /\ booster_match l = None.
Hypothesis leaf_ok : forall ind ti i v tail nl,
  blanks ind -> nat_dec ti i -> word v -> quiet_text v -> ~ In ","%char v -> leaf_tail tail -> quiet_text tail -> eol nl ->
  let l := ind ++ ti ++ lit ":leaf=" ++ v ++ tail ++ nl in
  node l = None /\ leaf l = Some (i, v) /\ booster_match l = None.

(** Counting. *)
Notation count := (fold_left (fun c l => match booster_match l with
      | Some _ => (fst c + 1, snd c)
      | None => (fst c, snd c + (match node l with Some _ => 1 | None => 0 end) + (match leaf l with Some _ => 1 | None => 0 end))
      end)).
Definition one_node (l : text) : Prop := booster_match l = None /\ ((exists p, node l = Some p) /\ leaf l = None \/ node l = None /\ exists p, leaf l = Some p).
Lemma tree_one t ls : dump_tree op leaf_tail t ls -> Forall one_node ls.
Proof.
  induction 1 as [i v ind ti tail nl B1 B2 NI W QV NC LT QL E|i f x l r ind ti tf tail nl ll lr B1 B2 NI NF W QT QL NB E Hl IHl Hr IHr].
  - destruct (leaf_ok ind ti i v tail nl) as (K1 & K2 & K3); auto. constructor; [|constructor]. split; [exact K3|]. right. split; [exact K1|]. eexists; exact K2.
  - destruct (node_ok ind ti i tf f x tail nl) as (K1 & K2 & K3); auto. constructor; [|apply Forall_app; auto]. split; [exact K3|]. left. split; [|exact K2]. eexists; exact K1.
Qed.
Lemma count_one ls : Forall one_node ls -> forall c, count ls c = (fst c, snd c + Z.of_nat (length ls)).
Proof.
  induction 1 as [|l ls (B & H) _ IH]; intros c.
  - cbn. destruct c; cbn; f_equal; lia.
  - cbn [fold_left]. rewrite B. destruct H as [((p & ->) & ->)|(-> & (p & ->))]; rewrite IH; cbn [fst snd length]; f_equal; lia.
Qed.
Lemma Forall_firstn' {A} (P : A -> Prop) k l : Forall P l -> Forall P (firstn k l).
Proof. rewrite !Forall_forall. intros H x I. apply H, (In_firstn l k), I. Qed.
Lemma count_cut k ts ls : dump_trees op leaf_tail k ts ls -> forall n c,
  count (firstn n ls) c = (fst c + Z.of_nat (length (pieces n ts)), snd c + Z.of_nat (there n ts)).
Proof.
  induction 1 as [k|k tk rest t ll ts ls NK DT DS IH]; intros n c.
  - rewrite firstn_nil. destruct n; cbn; destruct c; cbn; f_equal; lia.
  - destruct n as [|n]; [cbn; destruct c; cbn; f_equal; lia|]. cbn [firstn fold_left]. rewrite (booster_line tk k rest NK).
    rewrite firstn_app, fold_left_app, (count_one (firstn n ll)) by (apply Forall_firstn'; eapply tree_one; exact DT).
    rewrite IH, firstn_length, (lines_length _ _ _ _ DT). cbn [fst snd pieces length]. rewrite there_cons. f_equal; lia.
Qed.

(** Nodes numbered in the order of the lines. *)
Fixpoint in_order (a : Z) (ts : list (tree (Z * Z) text)) : Prop :=
  match ts with [] => True | t :: r => map snd (marks t) = zrange a (a + Z.of_nat (size t)) /\ in_order (a + Z.of_nat (size t)) r end.
Lemma firstn_zrange k : forall a n, firstn k (zrange a (a + Z.of_nat n)) = zrange a (a + Z.of_nat (Nat.min k n)).
Proof.
  induction k as [|k IH]; intros a n.
  - cbn [firstn Nat.min]. unfold zrange. replace (Z.to_nat _) with 0%nat by lia. reflexivity.
  - destruct n as [|n]; [cbn [Nat.min]; unfold zrange; replace (Z.to_nat _) with 0%nat by lia; reflexivity|].
    rewrite (zrange_cons a) by lia. rewrite (zrange_cons a) by (cbn [Nat.min]; lia). cbn [firstn Nat.min]. f_equal.
    replace (a + Z.of_nat (S n)) with (a + 1 + Z.of_nat n) by lia. rewrite IH. f_equal. lia.
Qed.
Definition shape (e e' : ensemble N) : Prop :=
  e_ntrees e' = e_ntrees e /\ e_nnodes e' = e_nnodes e /\ length (e_root e') = length (e_root e) /\ length (e_weight e') = length (e_weight e) /\
  length (e_left e') = length (e_left e) /\ length (e_right e') = length (e_right e) /\
  length (e_value e') = length (e_value e) /\ length (e_feature e') = length (e_feature e).
Lemma cut_loop k ts ls : dump_trees op leaf_tail k (map (relabel fst) ts) ls ->
  forall m kn a e root num b lr, k = Z.of_nat kn -> a = root + num ->
  good_trees rd number thr hthr a ts -> in_order a ts ->
  sized (Z.of_nat (length (e_left e))) e -> 0 <= a ->
  a + Z.of_nat (there m ts) <= Z.of_nat (length (e_left e)) -> blank_from a e ->
  (kn + length (pieces m ts) <= length (e_root e))%nat -> (kn + length (pieces m ts) <= length (e_weight e))%nat ->
  exists s', foldM step (firstn m ls) (mkD e root num [] b lr) = Ok s' /\ d_base s' = b /\ d_lr s' = lr /\
    shape e (d_ens s') /\
    (forall j, j < a -> same_cell e (d_ens s') j) /\
    (forall j, j < Z.of_nat kn -> zget (e_root (d_ens s')) j = zget (e_root e) j /\ zget (e_weight (d_ens s')) j = zget (e_weight e) j) /\
    (forall i p, nth_error (pieces m ts) i = Some p ->
       zget (e_root (d_ens s')) (Z.of_nat (kn + i)) = Some (snd (mark (snd p))) /\ zget (e_weight (d_ens s')) (Z.of_nat (kn + i)) = Some none /\
       (fst p = 0%nat /\ snd (mark (snd p)) = a + Z.of_nat (there m ts) /\ S i = length (pieces m ts) \/ (0 < fst p)%nat /\ stands (d_ens s') (cut_tree (fst p) (conv (relabel snd (snd p)))))).
Proof.
  revert k ls. induction ts as [|t ts IH]; intros k ls D m kn a e root num b lr Hk Ha G O SZ H0 Hn BL HR HW; cbn [map] in D; inversion D; subst.
  - rewrite firstn_nil. exists (mkD e root num [] b lr). cbn [foldM d_base d_lr d_ens]. split; [reflexivity|]. do 2 (split; [reflexivity|]). split; [unfold shape; tauto|].
    split; [intros; apply same_refl|]. split; [auto|]. intros i p H. destruct m, i; discriminate.
  - rename H2 into NK, H4 into DT, H6 into DS. cbn [good_trees] in G. destruct G as [(G1 & G2 & G3 & G4 & _) G']. cbn [in_order] in O. destruct O as [G5 O'].
    destruct m as [|m].
    { exists (mkD e root num [] b lr). cbn [firstn foldM d_base d_lr d_ens]. split; [reflexivity|]. do 2 (split; [reflexivity|]). split; [unfold shape; tauto|].
      split; [intros; apply same_refl|]. split; [auto|]. intros i p H. destruct i; discriminate. }
    rewrite there_cons in Hn. cbn [pieces length] in HR, HW. set (st := Z.of_nat (size t)) in *.
    set (e2 := mkEns (e_ntrees e) (e_nnodes e) (upd (e_root e) kn (root + num)) (upd (e_weight e) kn none) (e_left e) (e_right e) (e_value e) (e_feature e)).
    assert (FST : foldM step (firstn (S m) ((lit "booster[" ++ tk ++ lit "]" ++ rest) :: ll ++ ls0)) (mkD e root num [] b lr) =
      foldM step (firstn m ll ++ firstn (m - size t) ls0) (mkD e2 (root + num) 0 [] b lr)).
    { rewrite <- (size_relabel fst t), <- (lines_length _ _ _ _ DT), <- firstn_app. cbn [firstn foldM]. unfold dump_line at 1. rewrite (booster_line tk (Z.of_nat kn) rest NK). cbn [d_queue d_root d_num d_ens d_base d_lr].
      rewrite set_root_ok by lia. cbn [bind]. rewrite set_weight_ok by (cbn [e_weight]; lia).
      cbn [bind e_ntrees e_nnodes e_root e_weight e_left e_right e_value e_feature]. fold e2. reflexivity. }
    assert (SH2 : shape e e2) by (unfold shape, e2; cbn [e_ntrees e_nnodes e_root e_weight e_left e_right e_value e_feature]; rewrite !upd_length; tauto).
    assert (RW2 : forall e3, nodes_only e2 e3 -> (forall j, j < Z.of_nat kn -> zget (e_root e3) j = zget (e_root e) j /\ zget (e_weight e3) j = zget (e_weight e) j) /\
      zget (e_root e3) (Z.of_nat kn) = Some (root + num) /\ zget (e_weight e3) (Z.of_nat kn) = Some none /\ shape e e3).
    { intros e3 NO. pose proof NO as (N1 & N2 & N3 & N4 & N5 & N6 & N7 & N8). rewrite N3, N4. unfold e2. cbn [e_root e_weight]. split.
      - intros j J. rewrite <- (Nat2Z.id kn), !zget_upd by lia. destruct (Z.eqb_spec (Z.of_nat kn) j); [lia|auto].
      - rewrite <- (Nat2Z.id kn) at 1 3. rewrite !zget_upd by lia. rewrite !Z.eqb_refl. split; [reflexivity|]. split; [reflexivity|].
        unfold shape in SH2 |- *. rewrite N1, N2, N3, N4, N5, N6, N7, N8. exact SH2. }
    assert (ND : NoDup (map snd (marks t))) by (rewrite G5; apply zrange_nodup).
    destruct (Nat.le_gt_cases (size t) m) as [KM|KM].
    + (* the whole tree *)
      rewrite (Nat.min_r m) in Hn by lia. rewrite (firstn_all2 ll) in FST by (rewrite (lines_length _ _ _ _ DT), size_relabel; lia).
      destruct (dump_body rd node leaf number thr hthr op leaf_tail node_ok leaf_ok t ll DT G1 G2 (Z.of_nat (length (e_left e))) e2 (root + num) 0 [] b lr) as (e3 & B1 & B2 & B3 & B4); auto.
      { intros j Hj. rewrite G5 in Hj. apply in_zrange in Hj. split; [lia|].
        assert (Hr : root + num <= j < Z.of_nat (length (e_left e))) by lia. exact (BL j Hr). }
      { intros p c q E. discriminate. }
      destruct (RW2 e3 B2) as (R1 & R2 & R3 & R4). pose proof R4 as (S1 & S2 & S3 & S4 & S5 & S6 & S7 & S8).
      assert (FR : forall j, ~ (root + num <= j < root + num + st) -> same_cell e e3 j).
      { intros j Hj. destruct (B4 j) as (U1 & U2 & U3 & U4); [intros I; rewrite G5 in I; apply in_zrange in I; lia|]. unfold same_cell. auto. }
      destruct (IH (Z.of_nat kn + 1) ls0 DS (m - size t)%nat (S kn) (root + num + st) e3 (root + num) st b lr) as (s4 & I1 & I2 & I3 & I4 & I5 & I6 & I7); auto; try lia.
      { eapply sized_nodes; [exact B2|]. rewrite S5. exact SZ. }
      { intros j Hj. rewrite S5 in Hj. destruct (FR j ltac:(lia)) as (A1 & A2 & A3 & _). destruct (BL j ltac:(lia)) as (Q1 & Q2 & Q3). unfold blank_cell. rewrite A1, A2, A3. auto. }
      exists s4. split; [|split; [exact I2|split; [exact I3|split; [|split; [|split]]]]].
      * eapply eq_trans; [exact FST|]. rewrite foldM_app, B1. cbn [bind tl]. replace (0 + Z.of_nat (size t)) with st by (unfold st; lia). exact I1.
      * unfold shape in *. intuition congruence.
      * intros j Hj. eapply same_trans; [apply FR; lia|]. apply I5. lia.
      * intros j Hj. destruct (I6 j ltac:(lia)) as [-> ->]. apply R1. exact Hj.
      * intros [|i] p Hp; cbn [pieces nth_error] in Hp.
        -- injection Hp as <-. cbn [fst snd]. rewrite Nat.add_0_r. destruct (I6 (Z.of_nat kn) ltac:(lia)) as [-> ->]. rewrite R2, R3, G4. split; [reflexivity|]. split; [reflexivity|]. right.
           pose proof (size_pos t). rewrite Nat.min_r by lia. split; [lia|]. rewrite cut_all_of by (rewrite size_convert, size_relabel; lia).
           eapply stands_same; [apply represents_stands; exact B3|]. intros j Hj. rewrite marks_convert, marks_relabel, G5 in Hj. apply in_zrange in Hj. apply I5. lia.
        -- destruct (I7 i p Hp) as (Y1 & Y2 & Y3). replace (kn + S i)%nat with (S kn + i)%nat by lia. split; [exact Y1|]. split; [exact Y2|].
           destruct Y3 as [(Y3 & Y4 & Y5)|Y3]; [left|right; exact Y3]. split; [exact Y3|]. rewrite there_cons, Nat.min_r by lia. cbn [pieces length]. split; [lia|]. lia.
    + (* the tree that is cut *)
      replace (m - size t)%nat with 0%nat in * by lia. rewrite Nat.min_l in Hn by lia. cbn [firstn] in FST. rewrite app_nil_r in FST.
      assert (P1 : pieces (S m) (t :: ts) = [(m, t)]).
      { cbn [pieces]. rewrite Nat.min_l by lia. replace (m - size t)%nat with 0%nat by lia. destruct ts; reflexivity. }
      assert (T1 : there (S m) (t :: ts) = m) by (unfold there; rewrite P1; cbn; lia).
      destruct (Nat.eq_dec m 0) as [-> |M0].
      * exists (mkD e2 (root + num) 0 [] b lr). cbn [d_base d_lr d_ens]. destruct (RW2 e2 (nodes_refl e2)) as (R1 & R2 & R3 & R4).
        split; [exact FST|]. do 2 (split; [reflexivity|]). split; [exact R4|]. split; [intros j J; unfold same_cell; auto|]. split; [exact R1|].
        rewrite P1, T1. intros [|[|i]] p Hp; try discriminate. injection Hp as <-. cbn [fst snd length]. rewrite Nat.add_0_r, R2, R3, G4. split; [reflexivity|]. split; [reflexivity|].
        left. split; [reflexivity|]. split; [lia|reflexivity].
      * destruct (cut_body rd node leaf number thr hthr op leaf_tail node_ok leaf_ok t ll m DT G1 G2 ltac:(lia) (Z.of_nat (length (e_left e))) e2 (root + num) 0 [] b lr) as (e3 & Q3 & B1 & _ & B2 & B3 & B4); auto.
        { intros j Hj. rewrite <- firstn_map, G5 in Hj. unfold st in Hj. rewrite firstn_zrange in Hj. apply in_zrange in Hj. split; [lia|].
          assert (Hr : root + num <= j < Z.of_nat (length (e_left e))) by lia. exact (BL j Hr). }
        { intros p c q E. discriminate. }
        destruct (RW2 e3 B2) as (R1 & R2 & R3 & R4). exists (mkD e3 (root + num) (0 + Z.of_nat m) Q3 b lr). cbn [d_base d_lr d_ens].
        split; [eapply eq_trans; [exact FST|exact B1]|]. do 2 (split; [reflexivity|]). split; [exact R4|]. split; [|split; [exact R1|]].
        -- intros j Hj. destruct (B4 j) as (U1 & U2 & U3 & U4); [intros I; rewrite G5 in I; apply in_zrange in I; lia|]. unfold same_cell. auto.
        -- rewrite P1. intros [|[|i]] p Hp; try discriminate. injection Hp as <-. cbn [fst snd]. rewrite Nat.add_0_r, R2, R3, G4. split; [reflexivity|]. split; [reflexivity|].
           right. split; [lia|exact B3].
Qed.
End Loop.
