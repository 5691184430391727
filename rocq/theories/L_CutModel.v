(** Proofs: model dumps of which only the first lines were written. *)
From Coq Require Import Ascii String List ZArith Lia Bool Permutation.
From Verif Require Import Base Lists Num M_Text M_Svmlight S_Svmlight L_Text L_Svmlight3 M_Dataset M_Ensemble S_Ensemble L_Ensemble L_Ensemble2 M_Loaders M_TextLoaders S_Loaders L_Loaders L_QuickRank L_Dump L_Dump2 S_CutModel.
Import ListNotations.
Local Open Scope Z_scope.

(** ** Arrays that may hold nodes without right child *)
Section Stands.
Context {N : num}.
Fixpoint stands (e : ensemble N) (t : tree Z N) : Prop :=
  match t with
  | Leaf i v => (exists l r, zget (e_left e) i = Some l /\ zget (e_right e) i = Some r /\ (l = -1 \/ r = -1)) /\ zget (e_value e) i = Some v
  | Node i f x l r =>
      zget (e_left e) i = Some (mark l) /\ zget (e_right e) i = Some (mark r) /\ zget (e_feature e) i = Some f /\ zget (e_value e) i = Some x /\
      stands e l /\ stands e r
  end.
Lemma represents_stands e t : represents e t -> stands e t.
Proof.
  induction t as [i v|i f x l IHl r IHr]; cbn [represents stands].
  - intros (A & B & _ & D). split; [exists (-1), (-1); auto|exact D].
  - intros (A & B & C & D & E & F). auto 8.
Qed.
Lemma stands_range e t : stands e t -> 0 <= mark t < Z.of_nat (length (e_left e)).
Proof. destruct t; cbn [stands mark]; [intros ((l & r & H & _) & _)|intros (H & _)]; eapply zget_range; eauto. Qed.
Lemma stands_same e e' t : stands e t -> (forall j, In j (marks t) -> same_cell e e' j) -> stands e' t.
Proof.
  induction t as [i v|i f x l IHl r IHr]; intros R S; cbn [stands] in R |- *.
  - destruct (S i (or_introl eq_refl)) as (A1 & A2 & A3 & A4). rewrite A1, A2, A4. exact R.
  - destruct R as (R1 & R2 & R3 & R4 & R5 & R6).
    destruct (S i (or_introl eq_refl)) as (A1 & A2 & A3 & A4). rewrite A1, A2, A3, A4. cbn [marks] in S.
    repeat (split; [assumption|]). split; [apply IHl|apply IHr]; auto; intros j Hj; apply S; right; apply in_or_app; auto.
Qed.
Lemma stands_exit e row t : stands e t -> zget (e_value e) (fst (exit_leaf row t)) = Some (snd (exit_leaf row t)).
Proof.
  induction t as [i v|i f x l IHl r IHr]; cbn [stands exit_leaf fst snd].
  - intros (_ & H). exact H.
  - intros (_ & _ & _ & _ & Hl & Hr). destruct (nleb _ x); auto.
Qed.
Lemma stands_walk e row t : stands e t -> Forall (fun f => 0 <= f < Z.of_nat (length row)) (splits t) ->
  forall fuel, (height t < fuel)%nat -> walk fuel e row (mark t) = Ok (fst (exit_leaf row t)).
Proof.
  induction t as [i v|i f x l IHl r IHr]; intros H Hf fuel Hfuel; (destruct fuel as [|fuel]; [cbn [height] in Hfuel; lia|]).
  - cbn [stands] in H. destruct H as ((l & r & H1 & H2 & O) & _). cbn [walk mark]. rewrite (mem_get_zget _ _ _ H1), (mem_get_zget _ _ _ H2). cbn [bind].
    destruct (Z.eqb_spec l (-1)); [reflexivity|]. destruct (Z.eqb_spec r (-1)); [reflexivity|]. destruct O; contradiction.
  - pose proof H as (H1 & H2 & H3 & H4 & Hl & Hr).
    cbn [splits] in Hf. inversion Hf as [|? ? Hf0 Hf']; subst. apply Forall_app in Hf' as [Hfl Hfr].
    cbn [height] in Hfuel. cbn [walk mark exit_leaf].
    pose proof (stands_range e l Hl) as Rl. pose proof (stands_range e r Hr) as Rr.
    rewrite (mem_get_zget _ _ _ H1), (mem_get_zget _ _ _ H2), (mem_get_zget _ _ _ H3), (mem_get_zget _ _ _ H4).
    cbn [bind]. replace (mark l =? -1) with false by (symmetry; apply Z.eqb_neq; lia).
    replace (mark r =? -1) with false by (symmetry; apply Z.eqb_neq; lia).
    rewrite (mem_get_zget _ _ _ (zget_some_nth row f nzero Hf0)). cbn [bind].
    destruct (nleb _ x); [apply IHl|apply IHr]; auto; lia.
Qed.
Definition stands_all (e : ensemble N) (ts : list (tree Z N)) (ws : list N) : Prop :=
  e_ntrees e = Z.of_nat (length ts) /\ e_root e = map mark ts /\ e_weight e = ws /\ length ws = length ts /\
  Forall (stands e) ts /\ Forall (fun t => height t <= length (e_left e))%nat ts.
Lemma stands_tree e ts ws row i t w : stands_all e ts ws -> covers row ts -> nth_error ts i = Some t -> nth_error ws i = Some w ->
  exit_node e row (Z.of_nat i) = Ok (fst (exit_leaf row t)) /\
  leaf_score e (Z.of_nat i) (fst (exit_leaf row t)) = Ok (nf32 (nmul (snd (exit_leaf row t)) w)).
Proof.
  intros (_ & R & W & _ & S & H) C I J. unfold covers in C. rewrite Forall_forall in C, S, H. pose proof (nth_error_In _ _ I) as T.
  assert (E : zget (e_root e) (Z.of_nat i) = Some (mark t)) by (rewrite zget_nth, R; apply map_nth_error; exact I).
  assert (E' : zget (e_weight e) (Z.of_nat i) = Some w) by (rewrite zget_nth, W; exact J). split.
  - unfold exit_node. rewrite (mem_get_zget _ _ _ E). cbn [bind]. apply stands_walk; auto. specialize (H t T). cbn beta in H. lia.
  - unfold leaf_score. rewrite (mem_get_zget _ _ _ (stands_exit e row t (S t T))). cbn [bind]. rewrite (mem_get_zget _ _ _ E'). reflexivity.
Qed.
Lemma stands_score e ts ws X : stands_all e ts ws -> (forall row, In row X -> covers row ts) ->
  basic_scoring e X = Ok (map (ensemble_score ws ts) X).
Proof.
  intros He Hc. unfold basic_scoring. apply mapM_ok. intros row Hr. unfold score_instance. pose proof He as (En & _ & _ & El & _).
  assert (Elen : length (combine ws ts) = length ts) by (rewrite combine_length, El; lia).
  rewrite En, <- Elen.
  rewrite (foldM_zrange (combine ws ts) _ (fun y p => nf32 (nadd y (nf32 (nmul (snd (exit_leaf row (snd p))) (fst p)))))).
  - unfold ensemble_score, tree_scores. f_equal.
    clear Elen. generalize (@nzero N) as z. induction (combine ws ts) as [|p l IH]; intros z; [reflexivity|].
    cbn [map fold_left]. apply IH.
  - intros i [w t] c Hi. apply nth_error_combine in Hi as [Hw Ht]. cbn [fst snd] in *.
    destruct (stands_tree e ts ws row i t w He (Hc row Hr) Ht Hw) as (-> & E). cbn [bind]. rewrite E. reflexivity.
Qed.
End Stands.

(** ** Cut trees *)
Lemma mark_cut {A V} k (t : tree A V) : mark (cut_tree k t) = mark t.
Proof. destruct t as [|a f x l r]; cbn [cut_tree]; [reflexivity|]. destruct (k <=? S (size l))%nat; reflexivity. Qed.
Lemma size_pos {A V} (t : tree A V) : (0 < size t)%nat.
Proof. destruct t; cbn [size]; lia. Qed.
Lemma height_size {A V} (t : tree A V) : (height t < size t)%nat.
Proof. induction t; cbn [height size]; lia. Qed.
Lemma height_cut {A V} (t : tree A V) : forall k, (0 < k < size t)%nat -> (height (cut_tree k t) < k)%nat.
Proof.
  induction t as [a v|a f x l _ r IHr]; intros k K; cbn [size cut_tree] in *; [lia|].
  destruct (Nat.leb_spec k (S (size l))); cbn [height]; [lia|]. pose proof (height_size l). specialize (IHr (k - S (size l))%nat ltac:(lia)). lia.
Qed.
Lemma marks_length {A V} (t : tree A V) : length (marks t) = size t.
Proof. induction t; cbn [marks size length]; [reflexivity|]. rewrite app_length. lia. Qed.
Lemma marks_cut {A V} (t : tree A V) : forall k j, (0 < k)%nat -> In j (marks (cut_tree k t)) -> In j (firstn k (marks t)).
Proof.
  induction t as [a v|a f x l _ r IHr]; intros k j K; cbn [cut_tree].
  - destruct k; [lia|]. cbn [marks firstn]. rewrite firstn_nil. intros H. exact H.
  - destruct (Nat.leb_spec k (S (size l))); cbn [marks].
    + intros [<- |[]]. destruct k; [lia|]. left. reflexivity.
    + intros [<- |H']; [destruct k; [lia|]; left; reflexivity|]. destruct k; [lia|]. cbn [firstn]. right. rewrite firstn_app, marks_length.
      apply in_app_or in H' as [H'|H']; apply in_or_app; [left|right].
      * rewrite firstn_all2; [exact H'|rewrite marks_length; lia].
      * apply IHr; [lia|]. exact H'.
Qed.
Lemma splits_cut {A V} (t : tree A V) : forall k f, In f (splits (cut_tree k t)) -> In f (splits t).
Proof.
  induction t as [a v|a g x l _ r IHr]; intros k f; cbn [cut_tree]; [intros []|]. destruct (k <=? S (size l))%nat; [intros []|]. cbn [splits].
  intros [H|H]; [left; exact H|right]. apply in_app_or in H. apply in_or_app. destruct H as [H|H]; [left; exact H|right; eapply IHr; exact H].
Qed.
Lemma lines_length op lt t ls : dump_tree op lt t ls -> length ls = size t.
Proof. induction 1; cbn [length size]; [reflexivity|]. rewrite app_length. lia. Qed.

(** ** The loop *)
Section Loop.
Context {N : num}.
Variable rd : text -> option N.
Variable node : text -> option (Z * Z * text).
Variable leaf : text -> option (Z * text).
Variable number : Z -> Z -> Z -> Z.
Variable thr : text -> res N.
Variable hthr : text -> N.
Variable op : string.
Variable leaf_tail : text -> Prop.
Notation cell := (cell_of rd).
Notation step := (dump_line rd node leaf number thr).
Notation conv := (convert hthr cell).
Hypothesis node_ok : forall ind ti i tf f x tail nl,
  blanks ind -> nat_dec ti i -> nat_dec tf f -> word x -> quiet_text x -> quiet_text tail -> ~ In "]"%char tail -> eol nl ->
  let l := ind ++ ti ++ lit ":[f" ++ tf ++ lit op ++ x ++ lit "]" ++ tail ++ nl in
  node l = Some (i, f, x) /\ leaf l = None /\ booster_match l = None.
Hypothesis leaf_ok : forall ind ti i v tail nl,
  blanks ind -> nat_dec ti i -> word v -> quiet_text v -> ~ In ","%char v -> leaf_tail tail -> quiet_text tail -> eol nl ->
  let l := ind ++ ti ++ lit ":leaf=" ++ v ++ tail ++ nl in
  node l = None /\ leaf l = Some (i, v) /\ booster_match l = None.
Notation good_texts := (texts_ok rd thr hthr).
Notation numbered := (numbers_to number).

(** The first [k] lines of a tree. *)
Lemma cut_body t : forall ls k, dump_tree op leaf_tail (relabel fst t) ls -> fits16 t -> good_texts t -> (0 < k < size t)%nat ->
  forall n e root num Q b lr, sized n e -> numbered root num t ->
  NoDup (map snd (marks t)) -> (forall j, In j (map snd (firstn k (marks t))) -> 0 <= j < n /\ blank_cell e j) ->
  (forall p c q, Q = (p, c) :: q -> 0 <= p < n /\ ~ In p (map snd (marks t))) ->
  exists e' Q', foldM step (firstn k ls) (mkD e root num Q b lr) = Ok (mkD e' root (num + Z.of_nat k) Q' b lr) /\ Q' <> [] /\
    nodes_only e e' /\ stands e' (cut_tree k (conv (relabel snd t))) /\
    (forall j, ~ In j (map snd (marks t)) ->
       zget (e_left e') j = link_l Q (snd (mark t)) e j /\ zget (e_right e') j = link_r Q (snd (mark t)) e j /\
       zget (e_feature e') j = zget (e_feature e) j /\ zget (e_value e') j = zget (e_value e) j).
Proof.
  induction t as [[i id] v|[i id] f x l IHl r IHr]; intros ls k DT FT [TT TL] K n e root num Q b lr SZ NU ND BL HQ; [cbn [size] in K; lia|].
  cbn [relabel fst] in DT. inversion DT; subst; clear DT. cbn [marks map snd mark size relabel convert] in *.
  destruct k as [|k]; [lia|]. cbn [firstn map snd] in BL.
  destruct (node_ok ind ti i tf f x tail nl) as (K1 & K2 & K3); auto.
  destruct (BL id (or_introl eq_refl)) as [Hid (B1 & B2 & B3)].
  unfold fits16 in FT. cbn [splits] in FT. inversion FT as [|? ? FF FT']; subst. apply Forall_app in FT'. destruct FT' as [FL FR].
  cbn [thresholds outputs] in TT, TL. inversion TT as [|? ? TX TT']; subst. apply Forall_app in TT'. destruct TT' as [TTL TTR].
  apply Forall_app in TL. destruct TL as [TLL TLR].
  rewrite map_app in *. inversion ND as [|? ? ND1 ND2]; subst. cbn [numbers_to] in NU. destruct NU as (NU1 & NU2 & NU3).
  set (ML := map snd (marks l)) in *. set (MR := map snd (marks r)) in *.
  destruct (nodup_parts _ _ ND2) as (NDL & NDR & DJ).
  assert (NL : ~ In id ML) by (intros I; apply ND1; apply in_or_app; auto).
  assert (NR : ~ In id MR) by (intros I; apply ND1; apply in_or_app; auto).
  destruct (set_feature_ok n e id f SZ Hid) as (e1 & A1 & A2 & A3 & A4 & A5 & A6).
  pose proof (sized_nodes n e e1 A2 SZ) as SZ1.
  destruct (set_value_ok n e1 id (hthr x) SZ1 Hid) as (e2 & C1 & C2 & C3 & C4 & C5 & C6).
  pose proof (sized_nodes n e1 e2 C2 SZ1) as SZ2.
  destruct (link_ok n e2 Q id SZ2) as (e3 & L1 & L2 & L3 & L4 & L5 & L6); [intros; eapply HQ; eauto|].
  pose proof (sized_nodes n e2 e3 L2 SZ2) as SZ3.
  assert (HQid : forall p c q, Q = (p, c) :: q -> p <> id).
  { intros p c q E ->. eapply HQ; [exact E|]. left; reflexivity. }
  assert (E3 : forall j, j <> id -> zget (e_left e3) j = link_l Q id e j /\ zget (e_right e3) j = link_r Q id e j /\
            zget (e_feature e3) j = zget (e_feature e) j /\ zget (e_value e3) j = zget (e_value e) j).
  { intros j Hj. rewrite L3, L4, L5, L6, C6, A3, C3, A6. destruct (Z.eqb_spec id j); [congruence|].
    unfold link_l, link_r. rewrite C4, C5, A4, A5. auto. }
  assert (E3id : zget (e_left e3) id = Some (-1) /\ zget (e_right e3) id = Some (-1) /\
            zget (e_feature e3) id = Some f /\ zget (e_value e3) id = Some (hthr x)).
  { rewrite L3, L4, L5, L6, C6, A3, C3, Z.eqb_refl. unfold link_l, link_r. rewrite C4, C5, A4, A5.
    rewrite (i16_id f) by exact FF.
    destruct Q as [|[p [|]] q]; auto; specialize (HQid p _ q eq_refl); destruct (Z.eqb_spec p id); try contradiction; auto. }
  assert (LQ : forall j, In j ML \/ In j MR -> link_l Q id e j = zget (e_left e) j /\ link_r Q id e j = zget (e_right e) j).
  { intros j Hj. unfold link_l, link_r. destruct Q as [|[p c] q]; auto.
    destruct (HQ p c q eq_refl) as [_ Hp]. assert (p <> j) by (intros ->; apply Hp; right; apply in_or_app; tauto).
    destruct c; destruct (Z.eqb_spec p j); try contradiction; auto. }
  pose proof (lines_length _ _ _ _ H14) as LLl. rewrite size_relabel in LLl.
  assert (FST : foldM step (firstn (S k) ((ind ++ ti ++ lit ":[f" ++ tf ++ lit op ++ x ++ lit "]" ++ tail ++ nl) :: ll ++ lr0)) (mkD e root num Q b lr) =
    foldM step (firstn k ll ++ firstn (k - size l) lr0) (mkD e3 root (num + 1) ((id, L) :: (id, R) :: tl Q) b lr)).
  { rewrite <- LLl, <- firstn_app. cbn [firstn foldM]. unfold dump_line at 1. rewrite K3, K1, K2. cbn [bind d_root d_num d_ens d_queue d_base d_lr fst snd].
    rewrite NU1. rewrite (py_strip_word x x (padded_refl x)) by assumption. rewrite TX. cbn [bind].
    rewrite A1. cbn [bind]. rewrite C1. cbn [bind fst snd]. rewrite L1. cbn [bind fst snd]. reflexivity. }
  assert (NO3 : nodes_only e e3) by (eapply nodes_trans; [exact A2|]; eapply nodes_trans; [exact C2|exact L2]).
  cbn [cut_tree]. rewrite size_convert, size_relabel. rewrite firstn_app in BL. rewrite map_app in BL. rewrite marks_length in BL.
  assert (BL3 : forall j, In j ML \/ In j MR -> 0 <= j < n /\ blank_cell e j -> 0 <= j < n /\ blank_cell e3 j).
  { intros j Hj (Rj & (V1 & V2 & V3)). split; [exact Rj|]. assert (j <> id) by (destruct Hj; congruence). destruct (E3 j H) as (U1 & U2 & U3 & U4). destruct (LQ j Hj) as [U5 U6].
    unfold blank_cell. rewrite U1, U2, U3, U5, U6. auto. }
  destruct (Nat.leb_spec (S k) (S (size l))) as [KL|KL].
  - (* no line of the right subtree *)
    replace (k - size l)%nat with 0%nat in * by lia. cbn [firstn map app] in BL, FST. rewrite app_nil_r in BL. rewrite app_nil_r in FST.
    assert (LEFT : exists e4 Q4, foldM step (firstn k ll) (mkD e3 root (num + 1) ((id, L) :: (id, R) :: tl Q) b lr) = Ok (mkD e4 root (num + 1 + Z.of_nat k) Q4 b lr) /\ Q4 <> [] /\
      nodes_only e3 e4 /\ (forall j, ~ In j ML -> (j <> id -> zget (e_left e4) j = zget (e_left e3) j) /\ zget (e_right e4) j = zget (e_right e3) j /\
        zget (e_feature e4) j = zget (e_feature e3) j /\ zget (e_value e4) j = zget (e_value e3) j) /\ exists c, zget (e_left e4) id = Some c).
    { destruct (Nat.eq_dec k 0) as [-> |K0].
      - cbn [firstn foldM]. exists e3, ((id, L) :: (id, R) :: tl Q). rewrite Z.add_0_r. split; [reflexivity|]. split; [discriminate|]. split; [apply nodes_refl|].
        split; [auto|]. exists (-1). apply E3id.
      - assert (FR' : forall e4, (forall j, ~ In j ML -> zget (e_left e4) j = link_l ((id, L) :: (id, R) :: tl Q) (snd (mark l)) e3 j /\ zget (e_right e4) j = link_r ((id, L) :: (id, R) :: tl Q) (snd (mark l)) e3 j /\
            zget (e_feature e4) j = zget (e_feature e3) j /\ zget (e_value e4) j = zget (e_value e3) j) ->
            (forall j, ~ In j ML -> (j <> id -> zget (e_left e4) j = zget (e_left e3) j) /\ zget (e_right e4) j = zget (e_right e3) j /\
        zget (e_feature e4) j = zget (e_feature e3) j /\ zget (e_value e4) j = zget (e_value e3) j) /\ exists c, zget (e_left e4) id = Some c).
        { intros e4 H. split.
          - intros j Hj. destruct (H j Hj) as (W1 & W2 & W3 & W4). unfold link_l, link_r in W1, W2. split; [|auto]. intros J. destruct (Z.eqb_spec id j); [congruence|exact W1].
          - destruct (H id NL) as (W1 & _). unfold link_l in W1. rewrite Z.eqb_refl in W1. eexists. exact W1. }
        destruct (Nat.eq_dec k (size l)) as [-> |KN].
        + destruct (dump_body rd node leaf number thr hthr op leaf_tail node_ok leaf_ok l ll H14 FL (conj TTL TLL) n e3 root (num + 1) ((id, L) :: (id, R) :: tl Q) b lr) as (e4 & M1 & M2 & M3 & M4); auto.
          { fold ML. intros j Hj. apply BL3; [left; exact Hj|]. apply BL. right. rewrite firstn_all2 by (rewrite marks_length; lia). exact Hj. }
          { intros p c q E. injection E as <- <- <-. fold ML. auto. }
          exists e4, ((id, R) :: tl Q). rewrite firstn_all2 by lia. split; [exact M1|]. split; [discriminate|]. split; [exact M2|]. apply FR'. exact M4.
        + destruct (IHl ll k H14 FL (conj TTL TLL) ltac:(lia) n e3 root (num + 1) ((id, L) :: (id, R) :: tl Q) b lr) as (e4 & Q4 & M1 & M0 & M2 & M3 & M4); auto.
          { intros j Hj. apply BL3; [left; unfold ML; apply in_map_iff in Hj as (y & <- & Hy); apply in_map, (In_firstn _ k), Hy|]. apply BL. right. exact Hj. }
          { intros p c q E. injection E as <- <- <-. fold ML. auto. }
          exists e4, Q4. split; [exact M1|]. split; [exact M0|]. split; [exact M2|]. apply FR'. exact M4. }
    destruct LEFT as (e4 & Q4 & M1 & M0 & M2 & M4 & (c & M5)). exists e4, Q4. split; [eapply eq_trans; [exact FST|]; eapply eq_trans; [exact M1|]; do 2 f_equal; lia|]. split; [exact M0|]. split; [eapply nodes_trans; eauto|].
    destruct (M4 id NL) as (_ & W2 & W3 & W4). destruct E3id as (X1 & X2 & X3 & X4). split.
    + cbn [stands]. split; [|rewrite W4; exact X4]. exists c, (-1). rewrite W2. auto.
    + intros j Hj. assert (J1 : j <> id) by (intros ->; apply Hj; left; auto). assert (J2 : ~ In j ML) by (intros I; apply Hj; right; apply in_or_app; auto).
      destruct (E3 j J1) as (U1 & U2 & U3 & U4). destruct (M4 j J2) as (Y1 & Y2 & Y3 & Y4). rewrite (Y1 J1), Y2, Y3, Y4, U1, U2, U3, U4. auto.
  - (* the left subtree is complete *)
    rewrite (firstn_all2 ll) in FST by lia.
    destruct (dump_body rd node leaf number thr hthr op leaf_tail node_ok leaf_ok l ll H14 FL (conj TTL TLL) n e3 root (num + 1) ((id, L) :: (id, R) :: tl Q) b lr) as (e4 & M1 & M2 & M3 & M4); auto.
    { fold ML. intros j Hj. apply BL3; [left; exact Hj|]. apply BL. right. apply in_or_app. left. rewrite firstn_all2 by (rewrite marks_length; lia). exact Hj. }
    { intros p c q E. injection E as <- <- <-. fold ML. auto. }
    fold ML in M4. pose proof (sized_nodes n e3 e4 M2 SZ3) as SZ4.
    destruct (IHr lr0 (k - size l)%nat H15 FR (conj TTR TLR) ltac:(lia) n e4 root (num + 1 + Z.of_nat (size l)) ((id, R) :: tl Q) b lr) as (e5 & Q5 & P1 & P0 & P2 & P3 & P4); auto.
    { intros j Hj. assert (JR : In j MR) by (unfold MR; apply in_map_iff in Hj as (y & <- & Hy); apply in_map, (In_firstn _ (k - size l)), Hy).
      destruct (BL3 j (or_intror JR)) as (R1 & (V1 & V2 & V3)); [apply BL; right; apply in_or_app; right; exact Hj|]. split; [exact R1|].
      assert (NJ : ~ In j ML) by (intros I; eapply DJ; eauto). assert (j <> id) by congruence.
      destruct (M4 j NJ) as (W1 & W2 & W3 & W4). unfold link_l, link_r in W1, W2. destruct (Z.eqb_spec id j); [congruence|].
      unfold blank_cell. rewrite W1, W2, W3. auto. }
    { intros p c q E. injection E as <- <- <-. fold MR. auto. }
    fold MR in P4. exists e5, Q5. split; [|split; [exact P0|split; [|split]]].
    + eapply eq_trans; [exact FST|]. rewrite foldM_app, M1. cbn [bind tl]. eapply eq_trans; [exact P1|]. do 2 f_equal. lia.
    + eapply nodes_trans; [exact NO3|]. eapply nodes_trans; eauto.
    + change (S k - S (size l))%nat with (k - size l)%nat. cbn [stands]. rewrite mark_cut, !mark_convert, !mark_relabel.
      destruct (M4 id NL) as (W1 & W2 & W3 & W4). destruct (P4 id NR) as (Y1 & Y2 & Y3 & Y4).
      destruct E3id as (X1 & X2 & X3 & X4).
      unfold link_l, link_r in W1, W2, Y1, Y2. rewrite Z.eqb_refl in *.
      split; [rewrite Y1, W1; reflexivity|]. split; [rewrite Y2; reflexivity|].
      split; [rewrite Y3, W3, X3; reflexivity|]. split; [rewrite Y4, W4, X4; reflexivity|]. split; [|exact P3].
      apply represents_stands. eapply represents_same; [exact M3|]. intros j Hj. rewrite marks_convert, marks_relabel in Hj. fold ML in Hj.
      assert (NJ : ~ In j MR) by (intros I; eapply DJ; eauto). assert (j <> id) by congruence.
      destruct (P4 j NJ) as (Z1 & Z2 & Z3 & Z4). unfold link_l, link_r in Z1, Z2.
      destruct (Z.eqb_spec id j); [congruence|]. unfold same_cell. auto.
    + intros j Hj. assert (J1 : j <> id) by (intros ->; apply Hj; left; auto).
      assert (J2 : ~ In j ML) by (intros I; apply Hj; right; apply in_or_app; auto).
      assert (J3 : ~ In j MR) by (intros I; apply Hj; right; apply in_or_app; auto).
      destruct (E3 j J1) as (U1 & U2 & U3 & U4). destruct (M4 j J2) as (W1 & W2 & W3 & W4). destruct (P4 j J3) as (Y1 & Y2 & Y3 & Y4).
      unfold link_l, link_r in W1, W2, Y1, Y2. destruct (Z.eqb_spec id j); [congruence|].
      rewrite Y1, Y2, Y3, Y4, W1, W2, W3, W4, U1, U2, U3, U4. auto.
Qed.
End Loop.
