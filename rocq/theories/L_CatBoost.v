(** Proofs: CatBoost models (C45). *)
From Coq Require Import Ascii String List ZArith Lia Bool Permutation.
From Verif Require Import Base Lists Num M_Text M_Svmlight S_Svmlight L_Text M_Dataset M_Ensemble S_Ensemble L_Ensemble L_Ensemble2 M_Loaders M_TextLoaders S_Loaders L_Loaders L_QuickRank L_Dump L_Dump2 L_Arrays L_Lgbm.
Import ListNotations.
Local Open Scope Z_scope.

Section Cat.
Context {N : num}.
Notation cn := (@cnode N).

(** ** Counting *)
Definition note (a : list Z) (nd : cn) : res (list Z) := py_set a (c_tree nd) (u16 (c_id nd)).
Lemma notes nodes : forall a, (forall nd, In nd nodes -> 0 <= c_tree nd < Z.of_nat (length a)) ->
  exists a', foldM note nodes a = Ok a' /\ length a' = length a /\
    forall k, Forall (fun nd => c_tree nd <> k) nodes -> zget a' k = zget a k.
Proof.
  induction nodes as [|nd nodes IH]; intros a H; cbn [foldM].
  - exists a. auto.
  - unfold note at 1. pose proof (H nd (or_introl eq_refl)) as H1. rewrite py_set_in by lia. cbn [bind].
    destruct (IH (upd a (Z.to_nat (c_tree nd)) (u16 (c_id nd)))) as (a' & E & L & Z).
    + intros x Hx. rewrite upd_length. apply H. right; auto.
    + exists a'. rewrite upd_length in L. split; [exact E|]. split; [exact L|]. intros k F. inversion F; subst.
      rewrite (Z k) by assumption. rewrite zget_upd by lia. destruct (Z.eqb_spec (c_tree nd) k); congruence.
Qed.
Lemma u16_id i : 0 <= i < 65536 -> u16 i = i.
Proof. intros H. unfold u16, wrap_u. apply Z.mod_small. exact H. Qed.
Lemma fold_max l : forall x, x <= fold_left Z.max l x /\ (forall y, In y l -> y <= fold_left Z.max l x) /\ In (fold_left Z.max l x) (x :: l).
Proof.
  induction l as [|y l IH]; intros x; cbn [fold_left].
  - split; [lia|]. split; [intros ? []|left; auto].
  - destruct (IH (Z.max x y)) as (A & B & C). split; [lia|]. split.
    + intros z [<-|Hz]; [lia|auto].
    + destruct C as [C|C]; [|right; right; auto]. rewrite <- C. destruct (Z.max_spec x y) as [[_ ->]|[_ ->]]; [right; left|left]; auto.
Qed.
Lemma fold_add l : forall x, fold_left Z.add l x = x + fold_right Z.add 0 l.
Proof. induction l as [|y l IH]; intros x; cbn; [lia|]. rewrite IH. lia. Qed.
Lemma nth_ext_error {A} (l1 : list A) : forall l2, (forall n, nth_error l1 n = nth_error l2 n) -> l1 = l2.
Proof.
  induction l1 as [|x l1 IH]; intros [|y l2] H; auto; try (specialize (H 0%nat); discriminate).
  pose proof (H 0%nat) as H0. cbn in H0. injection H0 as ->. f_equal. apply IH. intros n. apply (H (S n)).
Qed.
Lemma zget_ext {A} (l1 l2 : list A) : length l1 = length l2 -> (forall j, 0 <= j < Z.of_nat (length l1) -> zget l1 j = zget l2 j) -> l1 = l2.
Proof.
  intros L H. apply nth_ext_error. intros n.
  destruct (Nat.lt_ge_cases n (length l1)) as [G|G].
  - specialize (H (Z.of_nat n) ltac:(lia)). unfold zget in H. destruct (Z.ltb_spec (Z.of_nat n) 0); [lia|]. rewrite Nat2Z.id in H. exact H.
  - rewrite (proj2 (nth_error_None l1 n)) by lia. symmetry. apply nth_error_None. lia.
Qed.

Lemma root_sub {A V} (t : tree A V) : In t (subtrees t).
Proof. destruct t; cbn; auto. Qed.

Lemma cat_trees_bound ts (nodes : list cn) : cat_file ts nodes -> forall nd, In nd nodes -> 0 <= c_tree nd < Z.of_nat (length ts).
Proof.
  intros F nd H. destruct (cat_only _ _ F nd H) as (k & t & s & H1 & _ & H2 & _).
  assert (k < length ts)%nat by (apply nth_error_Some; congruence). lia.
Qed.
Lemma cat_count_ok ts (nodes : list cn) junk : cat_file ts nodes -> ts <> [] -> Forall cat_tree ts ->
  Forall (fun t => Z.of_nat (size t) <= 65535) ts -> (length ts <= length junk)%nat ->
  cat_count junk nodes = Ok (Z.of_nat (length ts), Z.of_nat (total_size ts)).
Proof.
  intros F NE CT SZ LJ. unfold cat_count.
  destruct nodes as [|n0 nodes].
  { destruct ts as [|t ts]; [congruence|]. destruct (cat_all _ _ F 0%nat t t eq_refl (root_sub t)) as (nd & [] & _). }
  cbn [map].
  destruct (fold_max (map c_tree nodes) (c_tree n0)) as (M1 & M2 & M3).
  assert (MX : fold_left Z.max (map c_tree nodes) (c_tree n0) + 1 = Z.of_nat (length ts)).
  { assert (U : fold_left Z.max (map c_tree nodes) (c_tree n0) < Z.of_nat (length ts)).
    { change (c_tree n0 :: map c_tree nodes) with (map c_tree (n0 :: nodes)) in M3. apply in_map_iff in M3 as (nd & <- & Hn).
      apply (cat_trees_bound _ _ F _ Hn). }
    assert (LT : (length ts - 1 < length ts)%nat) by (destruct ts; [congruence|cbn; lia]).
    destruct (nth_error ts (length ts - 1)) as [t|] eqn:E; [|apply nth_error_None in E; lia].
    destruct (cat_all _ _ F _ t t E (root_sub t)) as (nd & Hn & (C & _)).
    destruct Hn as [<-|Hn]; [lia|]. specialize (M2 (c_tree nd) (in_map _ _ _ Hn)). lia. }
  rewrite MX, Nat2Z.id. set (a := firstn (length ts) junk).
  assert (LA : length a = length ts) by (apply firstn_length_le; lia).
  change (fun a nd => py_set a (c_tree nd) (u16 (c_id nd))) with note.
  destruct (notes (n0 :: nodes) a) as (a' & E & L & _).
  { intros nd H. rewrite LA. apply (cat_trees_bound _ _ F _ H). }
  rewrite E. cbn [bind]. do 2 f_equal.
  assert (EA : a' = map (fun t => Z.of_nat (size t) - 1) ts).
  { apply zget_ext; [rewrite map_length; lia|]. intros j Hj.
    assert (J : (Z.to_nat j < length ts)%nat) by lia.
    destruct (nth_error ts (Z.to_nat j)) as [t|] eqn:T; [|apply nth_error_None in T; lia].
    destruct (cat_last _ _ F _ t T) as (p & nd & b & EN & S & NB). rewrite Z2Nat.id in NB by lia.
    assert (R : forall x, In x (p ++ nd :: b) -> 0 <= c_tree x < Z.of_nat (length a)).
    { intros x Hx. rewrite LA. rewrite <- EN in Hx. apply (cat_trees_bound _ _ F _ Hx). }
    rewrite EN in E. rewrite foldM_app in E.
    destruct (notes p a) as (a1 & E1 & L1 & _). { intros x Hx. apply R. apply in_or_app; auto. }
    rewrite E1 in E. cbn [bind foldM] in E. unfold note at 1 in E.
    assert (RN : 0 <= c_tree nd < Z.of_nat (length a1)) by (rewrite L1; apply R, in_or_app; right; left; auto).
    rewrite py_set_in in E by exact RN. cbn [bind] in E.
    destruct (notes b (upd a1 (Z.to_nat (c_tree nd)) (u16 (c_id nd)))) as (a2 & E2 & L2 & Z2).
    { intros x Hx. rewrite upd_length, L1. apply R. apply in_or_app; right; right; auto. }
    rewrite E2 in E. injection E as <-. rewrite (Z2 j NB), zget_upd by exact RN.
    destruct S as (S1 & S2 & _). rewrite S1, Z2Nat.id by lia. rewrite Z.eqb_refl.
    rewrite zget_map. unfold zget. destruct (Z.ltb_spec j 0); [lia|]. rewrite T. cbn [option_map]. f_equal. rewrite S2.
    destruct (proj1 (Forall_forall _ _) CT t (nth_error_In _ _ T)) as [_ ->].
    pose proof (proj1 (Forall_forall _ _) SZ t (nth_error_In _ _ T)) as ST. cbn in ST. pose proof (size_pos t). apply u16_id. lia. }
  rewrite EA, fold_add, map_map. cbn [Z.add]. clear - SZ. unfold total_size. induction ts as [|t ts IH]; [reflexivity|].
  inversion SZ; subst. cbn [map fold_right]. rewrite lsum_cons, Nat2Z.inj_add, IH by assumption. f_equal.
  rewrite u16_id; lia.
Qed.

(** ** Roots that are not met stay unset *)
Lemma py_set_keep {A} (l l' : list A) i v : 0 <= i -> py_set l i v = Ok l' -> forall j, j <> i -> zget l' j = zget l j.
Proof.
  intros H E j Hj. unfold py_set in E. destruct (Z.ltb_spec i 0); [lia|]. destruct (Z.ltb_spec i 0); [lia|].
  destruct (Z.leb_spec (Z.of_nat (length l)) i); [discriminate|]. injection E as <-. rewrite zget_upd by lia.
  destruct (Z.eqb_spec i j); congruence.
Qed.
Ltac peel := repeat match goal with
  | H : bind ?x _ = Ok _ |- _ => destruct x eqn:?; [cbn [bind] in H|discriminate]
  | H : Ok _ = Ok _ |- _ => injection H as <-
  end.
Lemma step_roots m (e e' : ensemble N) (nd : cn) k : cat_step m e nd = Ok e' -> 0 <= c_tree nd -> (c_tree nd = k -> c_id nd <> m - 1) ->
  zget (e_root e') k = zget (e_root e) k.
Proof.
  unfold cat_step, remap. intros H H0 D.
  assert (SR : forall x i v y, set_root (N:=N) x i v = Ok y -> exists a, py_set (e_root x) i v = Ok a /\ e_root y = a).
  { intros x i v y E. unfold set_root in E. peel. eexists. split; eauto. }
  assert (SW : forall x i v y, set_weight (N:=N) x i v = Ok y -> e_root y = e_root x) by (intros x i v y E; unfold set_weight in E; peel; reflexivity).
  assert (SV : forall x i v y, set_value (N:=N) x i v = Ok y -> e_root y = e_root x) by (intros x i v y E; unfold set_value in E; peel; reflexivity).
  assert (SF : forall x i v y, set_feature (N:=N) x i v = Ok y -> e_root y = e_root x) by (intros x i v y E; unfold set_feature in E; peel; reflexivity).
  assert (SL : forall x i v y, set_left (N:=N) x i v = Ok y -> e_root y = e_root x) by (intros x i v y E; unfold set_left in E; peel; reflexivity).
  assert (SG : forall x i v y, set_right (N:=N) x i v = Ok y -> e_root y = e_root x) by (intros x i v y E; unfold set_right in E; peel; reflexivity).
  destruct (if m - 1 - c_id nd =? 0 then _ else _) as [e1|] eqn:E1; [|discriminate]. cbn [bind] in H.
  assert (R1 : zget (e_root e1) k = zget (e_root e) k).
  { destruct (Z.eqb_spec (m - 1 - c_id nd) 0) as [Z0|Z0]; [|injection E1 as <-; reflexivity].
    destruct (set_root e (c_tree nd) (c_tree nd * m)) as [x|] eqn:Ex; [|discriminate]. cbn [bind] in E1.
    rewrite (SW _ _ _ _ E1). destruct (SR _ _ _ _ Ex) as (a & P & ->). apply (py_set_keep _ _ _ _ H0 P). intros ->. apply D; [reflexivity|lia]. }
  rewrite <- R1. f_equal. destruct (c_behavior nd).
  - destruct (c_eval nd); [discriminate|]. eapply SV; exact H.
  - peel. rewrite (SG _ _ _ _ H). repeat match goal with E : _ = Ok ?y |- context [e_root ?y] => first [rewrite (SL _ _ _ _ E)|rewrite (SF _ _ _ _ E)|rewrite (SV _ _ _ _ E)]; clear E end. reflexivity.
  - peel. rewrite (SG _ _ _ _ H). repeat match goal with E : _ = Ok ?y |- context [e_root ?y] => first [rewrite (SL _ _ _ _ E)|rewrite (SF _ _ _ _ E)|rewrite (SV _ _ _ _ E)]; clear E end. reflexivity.
  - discriminate.
Qed.
Lemma steps_roots m k nodes : forall (e e' : ensemble N), foldM (cat_step m) nodes e = Ok e' ->
  Forall (fun nd : cn => 0 <= c_tree nd /\ (c_tree nd = k -> c_id nd <> m - 1)) nodes -> zget (e_root e') k = zget (e_root e) k.
Proof.
  induction nodes as [|nd nodes IH]; intros e e' H F; cbn [foldM] in H; [injection H as <-; auto|].
  inversion F as [|? ? [F1 F2] F3]; subst. peel. rewrite (IH _ _ H F3). eapply step_roots; eauto.
Qed.

(** ** The cells of one node *)
Definition top (e : ensemble N) (t : tree Z N) : Prop :=
  match t with
  | Leaf i v => zget (e_left e) i = Some (-1) /\ zget (e_right e) i = Some (-1) /\ zget (e_feature e) i = Some (-1) /\ zget (e_value e) i = Some v
  | Node i f thr l r => zget (e_left e) i = Some (mark l) /\ zget (e_right e) i = Some (mark r) /\ zget (e_feature e) i = Some f /\ zget (e_value e) i = Some thr
  end.
Lemma tops e t : (forall s, In s (subtrees t) -> top e s) -> represents e t.
Proof.
  induction t as [i v|i f x l IHl r IHr]; intros H; cbn [subtrees represents] in *.
  - apply (H _ (or_introl eq_refl)).
  - destruct (H _ (or_introl eq_refl)) as (A & B & C & D). repeat (split; [assumption|]). split.
    + apply IHl. intros s Hs. apply H. right. apply in_or_app; auto.
    + apply IHr. intros s Hs. apply H. right. apply in_or_app; auto.
Qed.
Lemma top_same e e' t : top e t -> same_cell e e' (mark t) -> top e' t.
Proof. destruct t; cbn [top mark]; intros T (A & B & C & D); rewrite A, B, C, D; exact T. Qed.
Lemma sub_marks {A V} (t s : tree A V) : In s (subtrees t) -> In (mark s) (marks t).
Proof.
  induction t as [i v|i f x l IHl r IHr]; cbn [subtrees marks].
  - intros [<-|[]]. left; auto.
  - intros [<-|H]; [left; auto|]. right. apply in_or_app. apply in_app_or in H as [H|H]; auto.
Qed.
Lemma marks_sub {A V} (t : tree A V) : map mark (subtrees t) = marks t.
Proof. induction t; cbn; auto. rewrite map_app. congruence. Qed.
Lemma mark_inj {A V} (t s s' : tree A V) : NoDup (marks t) -> In s (subtrees t) -> In s' (subtrees t) -> mark s = mark s' -> s = s'.
Proof.
  rewrite <- marks_sub. generalize (subtrees t). intros l. induction l as [|x l IH]; intros ND H1 H2 E; [destruct H1|].
  cbn in ND. inversion ND as [|? ? ND1 ND2]; subst. destruct H1 as [<-|H1]; destruct H2 as [<-|H2]; auto.
  - exfalso. apply ND1. rewrite E. apply in_map; auto.
  - exfalso. apply ND1. rewrite <- E. apply in_map; auto.
Qed.
Lemma sub_convert {A V W} (h k : V -> W) (t : tree A V) : subtrees (convert h k t) = map (convert h k) (subtrees t).
Proof. induction t; cbn; auto. rewrite map_app. congruence. Qed.
Lemma sub_relabel {A B V} (g : A -> B) (t : tree A V) : subtrees (relabel g t) = map (relabel g) (subtrees t).
Proof. induction t; cbn; auto. rewrite map_app. congruence. Qed.
Lemma sub_splits {A V} (t s : tree A V) : In s (subtrees t) -> incl (splits s) (splits t).
Proof.
  induction t as [i v|i f x l IHl r IHr]; cbn [subtrees].
  - intros [<-|[]]. apply incl_refl.
  - intros [<-|H]; [apply incl_refl|]. cbn [splits]. intros y Hy. right. apply in_or_app. apply in_app_or in H as [H|H]; [left; apply IHl|right; apply IHr]; auto.
Qed.

Notation conv := (convert (nf32 (n:=N)) (nf32 (n:=N))).
Definition placed_at (n : Z) (k : nat) : tree Z N -> tree Z N := fun s => relabel (fun i => Z.of_nat k * n + (n - 1 - i)) (conv s).

Lemma set_root_in (e : ensemble N) i v : 0 <= i < Z.of_nat (length (e_root e)) ->
  set_root e i v = Ok (mkEns (e_ntrees e) (e_nnodes e) (upd (e_root e) (Z.to_nat i) v) (e_weight e) (e_left e) (e_right e) (e_value e) (e_feature e)).
Proof. intros H. unfold set_root. rewrite py_set_in by exact H. reflexivity. Qed.
Lemma set_weight_in (e : ensemble N) i v : 0 <= i < Z.of_nat (length (e_weight e)) ->
  set_weight e i v = Ok (mkEns (e_ntrees e) (e_nnodes e) (e_root e) (upd (e_weight e) (Z.to_nat i) v) (e_left e) (e_right e) (e_value e) (e_feature e)).
Proof. intros H. unfold set_weight. rewrite py_set_in by exact H. reflexivity. Qed.

Lemma zget_upd_nat {A} (l : list A) k j v : (k < length l)%nat -> zget (upd l k v) j = if Z.of_nat k =? j then Some v else zget l j.
Proof. intros H. rewrite <- zget_upd by lia. rewrite Nat2Z.id. reflexivity. Qed.
Section Load.
Variables (n : nat) (ts : list (tree Z N)).
Notation zn := (Z.of_nat n).
Hypothesis SIZE : Forall (fun t => size t = n) ts.
Hypothesis TREE : Forall cat_tree ts.
Hypothesis FITS : Forall fits16 ts.

Definition mine (k : nat) (s : tree Z N) : Prop := exists t, nth_error ts k = Some t /\ In s (subtrees t).
Lemma mine_k k s : mine k s -> (k < length ts)%nat.
Proof. intros (t & H & _). apply nth_error_Some. congruence. Qed.
Lemma mine_mark k s : mine k s -> 0 <= mark s < zn.
Proof.
  intros (t & H & Hs). apply nth_error_In in H. pose proof (proj1 (Forall_forall _ _) TREE t H) as [P _].
  pose proof (proj1 (Forall_forall _ _) SIZE t H) as SZ. cbn in SZ. apply sub_marks in Hs. apply (Permutation_in _ P) in Hs.
  apply in_zrange in Hs. lia.
Qed.
Lemma mine_inj k s s' : mine k s -> mine k s' -> mark s = mark s' -> s = s'.
Proof.
  intros (t & H & Hs) (t' & H' & Hs') E. assert (t' = t) by congruence. subst t'. apply nth_error_In in H.
  pose proof (proj1 (Forall_forall _ _) TREE t H) as [P _].
  eapply mark_inj; eauto. eapply Permutation_NoDup; [apply Permutation_sym; exact P|apply zrange_nodup].
Qed.
Lemma mine_fits k s : mine k s -> fits16 s.
Proof.
  intros (t & H & Hs). apply nth_error_In in H. pose proof (proj1 (Forall_forall _ _) FITS t H) as F.
  unfold fits16 in *. eapply incl_Forall; [apply sub_splits; exact Hs|exact F].
Qed.
Definition spot (k : nat) (s : tree Z N) : Z := Z.of_nat k * zn + (zn - 1 - mark s).
Lemma spot_mark k s : mark (placed_at zn k s) = spot k s.
Proof. unfold placed_at. rewrite mark_relabel, mark_convert. reflexivity. Qed.
Lemma spot_inj k s k' s' : mine k s -> mine k' s' -> spot k s = spot k' s' -> k = k' /\ s = s'.
Proof.
  intros M M' E. pose proof (mine_mark _ _ M). pose proof (mine_mark _ _ M'). unfold spot in E.
  assert (k = k') by nia. subst k'. split; auto. eapply mine_inj; eauto. lia.
Qed.
Lemma spot_bound k s : mine k s -> 0 <= spot k s < Z.of_nat (length ts) * zn.
Proof. intros M. pose proof (mine_mark _ _ M). pose proof (mine_k _ _ M). unfold spot. nia. Qed.

Record inv (e0 : ensemble N) (don : list cn) (e : ensemble N) : Prop := {
  i_nt : e_ntrees e = e_ntrees e0; i_nn : e_nnodes e = e_nnodes e0;
  i_lr : length (e_root e) = length ts; i_lw : length (e_weight e) = length ts;
  i_sz : sized (Z.of_nat (length ts) * zn) e;
  i_cell : forall k s, mine k s -> top e (placed_at zn k s) \/ blank_cell e (spot k s);
  i_done : forall k s nd, In nd don -> mine k s -> cat_says k s nd -> top e (placed_at zn k s) /\
     (mark s = zn - 1 -> zget (e_root e) (Z.of_nat k) = Some (Z.of_nat k * zn) /\ zget (e_weight e) (Z.of_nat k) = Some none) }.

(** What writing the cells of one node does. *)
Lemma write_ok k s nd (e : ensemble N) : mine k s -> cat_says k s nd -> sized (Z.of_nat (length ts) * zn) e ->
  (top e (placed_at zn k s) \/ blank_cell e (spot k s)) ->
  exists e', match c_behavior nd with
    | BLeaf => match c_eval nd with [] => Err IndexError | v :: _ => set_value e (spot k s) (nf32 v) end
    | BOther => Err AssertionError
    | b => do e2 <- set_value e (spot k s) (nf32 (c_value nd));
           do e3 <- set_feature e2 (spot k s) (c_feature nd);
           do e4 <- set_left e3 (spot k s) (Z.of_nat k * zn + remap zn (match b with BGreater => c_false nd | _ => c_true nd end));
           set_right e4 (spot k s) (Z.of_nat k * zn + remap zn (match b with BGreater => c_true nd | _ => c_false nd end))
    end = Ok e' /\ nodes_only e e' /\ top e' (placed_at zn k s) /\ (forall j, j <> spot k s -> same_cell e e' j).
Proof.
  intros M (C1 & C2 & C3) SZ TB. pose proof (spot_bound _ _ M) as SB. set (m := Z.of_nat (length ts) * zn) in *.
  destruct s as [i v|i f thr l r].
  - destruct C3 as (-> & r & ->). destruct (set_value_ok m e (spot k (Leaf i v)) (nf32 v) SZ SB) as (e1 & A & B & C & D1 & D2 & D3).
    exists e1. split; [exact A|]. split; [exact B|]. split.
    + unfold placed_at. cbn [convert relabel top]. rewrite D1, D2, D3, C.
      change (Z.of_nat k * zn + (zn - 1 - i)) with (spot k (Leaf i v)). rewrite Z.eqb_refl.
      destruct TB as [T|(T1 & T2 & T3)]; [|auto]. unfold placed_at in T. cbn [convert relabel top] in T.
      change (Z.of_nat k * zn + (zn - 1 - i)) with (spot k (Leaf i v)) in T. tauto.
    + intros j Hj. unfold same_cell. rewrite D1, D2, D3, C. destruct (Z.eqb_spec (spot k (Leaf i v)) j); [congruence|auto].
  - pose proof (mine_fits _ _ M) as FT. unfold fits16 in FT. cbn [splits] in FT. inversion FT as [|? ? FT1 _]; subst.
    destruct C3 as (F1 & F2 & C3). set (sp := spot k (Node i f thr l r)) in *.
    destruct (set_value_ok m e sp (nf32 thr) SZ SB) as (e2 & A2 & B2 & C2' & L2 & R2 & G2). pose proof (sized_nodes _ _ _ B2 SZ) as S2.
    destruct (set_feature_ok m e2 sp f S2 SB) as (e3 & A3 & B3 & C3' & L3 & R3 & G3). pose proof (sized_nodes _ _ _ B3 S2) as S3.
    destruct (set_left_ok m e3 sp (spot k l) S3 SB) as (e4 & A4 & B4 & C4 & R4 & G4 & V4). pose proof (sized_nodes _ _ _ B4 S3) as S4.
    destruct (set_right_ok m e4 sp (spot k r) S4 SB) as (e5 & A5 & B5 & C5 & L5 & G5 & V5).
    exists e5. split.
    + assert (X : (do e2 <- set_value e sp (nf32 (c_value nd)); do e3 <- set_feature e2 sp (c_feature nd);
                   do e4 <- set_left e3 sp (Z.of_nat k * zn + remap zn (mark l)); set_right e4 sp (Z.of_nat k * zn + remap zn (mark r))) = Ok e5).
      { rewrite F1, F2, A2. cbn [bind]. rewrite A3. cbn [bind]. unfold remap. fold (spot k l). rewrite A4. cbn [bind]. exact A5. }
      destruct C3 as [(-> & -> & ->)|(-> & -> & ->)]; exact X.
    + split; [eapply nodes_trans; [exact B2|]; eapply nodes_trans; [exact B3|]; eapply nodes_trans; [exact B4|exact B5]|]. split.
      * unfold placed_at. cbn [convert relabel top]. rewrite !mark_relabel, !mark_convert.
        change (Z.of_nat k * zn + (zn - 1 - i)) with sp. fold (spot k l) (spot k r).
        rewrite L5, C4, C5, G5, G4, C3', V5, V4, G3, C2', Z.eqb_refl. rewrite i16_id by exact FT1. auto.
      * intros j Hj. unfold same_cell. rewrite L5, C4, C5, G5, G4, C3', V5, V4, G3, C2', R4, R3, R2, L3, L2.
        destruct (Z.eqb_spec sp j); [congruence|]. rewrite G2. auto.
Qed.

Lemma step_inv e0 don e k s nd : inv e0 don e -> mine k s -> cat_says k s nd ->
  exists e', cat_step zn e nd = Ok e' /\ inv e0 (don ++ [nd]) e'.
Proof.
  intros I M CS. pose proof CS as (C1 & C2 & _). pose proof (mine_k _ _ M) as MK.
  destruct I as [I1 I2 I3 I4 I5 I6 I7].
  unfold cat_step. rewrite C1, C2.
  set (e1 := if remap zn (mark s) =? 0 then
     mkEns (e_ntrees e) (e_nnodes e) (upd (e_root e) k (Z.of_nat k * zn)) (upd (e_weight e) k none) (e_left e) (e_right e) (e_value e) (e_feature e) else e).
  assert (E1 : (if remap zn (mark s) =? 0 then do e1 <- set_root e (Z.of_nat k) (Z.of_nat k * zn); set_weight e1 (Z.of_nat k) none else Ok e) = Ok e1).
  { unfold e1. destruct (remap zn (mark s) =? 0); auto. rewrite set_root_in by lia. cbn [bind]. rewrite set_weight_in by (cbn [e_weight]; lia).
    cbn [e_ntrees e_nnodes e_root e_weight e_left e_right e_value e_feature]. rewrite Nat2Z.id. reflexivity. }
  rewrite E1. cbn [bind].
  assert (SC : forall j, same_cell e e1 j) by (intros j; unfold e1; destruct (_ =? 0); unfold same_cell; auto).
  assert (SZ1 : sized (Z.of_nat (length ts) * zn) e1) by (unfold e1; destruct (_ =? 0); exact I5).
  assert (TB1 : forall k' s', mine k' s' -> top e1 (placed_at zn k' s') \/ blank_cell e1 (spot k' s')).
  { intros k' s' M'. destruct (I6 k' s' M') as [T|B]; [left|right].
    - eapply top_same; [exact T|apply SC].
    - destruct (SC (spot k' s')) as (X1 & X2 & X3 & _). unfold blank_cell. rewrite X1, X2, X3. exact B. }
  replace (remap zn (mark s) + Z.of_nat k * zn) with (spot k s) by (unfold spot, remap; lia).
  destruct (write_ok k s nd e1 M CS SZ1 (TB1 k s M)) as (e' & W1 & W2 & W3 & W4).
  exists e'. split. { destruct (c_behavior nd); exact W1. }
  assert (OTHER : forall k' s', mine k' s' -> top e (placed_at zn k' s') -> top e' (placed_at zn k' s')).
  { intros k' s' M' T. destruct (Z.eq_dec (spot k' s') (spot k s)) as [E|E].
    - destruct (spot_inj _ _ _ _ M' M E) as [-> ->]. exact W3.
    - eapply top_same; [eapply top_same; [exact T|apply SC]|]. rewrite spot_mark. apply W4. exact E. }
  assert (RT : e_root e' = e_root e1 /\ e_weight e' = e_weight e1) by (destruct W2 as (_ & _ & ? & ? & _); auto).
  destruct RT as [RT WT].
  constructor.
  - destruct W2 as (-> & _). unfold e1. destruct (_ =? 0); auto.
  - destruct W2 as (_ & -> & _). unfold e1. destruct (_ =? 0); auto.
  - rewrite RT. unfold e1. destruct (_ =? 0); cbn [e_root]; rewrite ?upd_length; auto.
  - rewrite WT. unfold e1. destruct (_ =? 0); cbn [e_weight]; rewrite ?upd_length; auto.
  - eapply sized_nodes; eauto.
  - intros k' s' M'. destruct (I6 k' s' M') as [T|B]; [left; apply OTHER; auto|].
    destruct (Z.eq_dec (spot k' s') (spot k s)) as [E|E].
    + destruct (spot_inj _ _ _ _ M' M E) as [-> ->]. left; exact W3.
    + right. destruct (SC (spot k' s')) as (X1 & X2 & X3 & _). destruct (W4 _ E) as (Y1 & Y2 & Y3 & _). unfold blank_cell. rewrite Y1, Y2, Y3, X1, X2, X3. exact B.
  - intros k' s' nd' H M' CS'. apply in_app_or in H as [H|[<-|[]]].
    + destruct (I7 k' s' nd' H M' CS') as [T R]. split; [apply OTHER; auto|]. intros Hm. destruct (R Hm) as [R1 R2]. rewrite RT, WT. unfold e1.
      destruct (_ =? 0); [|auto]. cbn [e_root e_weight].
      pose proof (mine_k _ _ M').
      destruct (Nat.eq_dec k k') as [<-|NE].
      * rewrite !zget_upd_nat by lia. rewrite Z.eqb_refl. auto.
      * rewrite !zget_upd_nat by lia. destruct (Z.eqb_spec (Z.of_nat k) (Z.of_nat k')); [lia|]. auto.
    + assert (k' = k) by (destruct CS' as (D1 & _); lia). subst k'.
      assert (s' = s) by (eapply mine_inj; eauto; destruct CS' as (_ & D2 & _); congruence). subst s'.
      split; [exact W3|]. intros Hm. rewrite RT, WT. unfold e1, remap. rewrite Hm. replace (zn - 1 - (zn - 1) =? 0) with true by (symmetry; apply Z.eqb_eq; lia).
      cbn [e_root e_weight]. rewrite !zget_upd_nat by lia. rewrite Z.eqb_refl. auto.
Qed.
Lemma steps_inv e0 nodes : forall don e, inv e0 don e -> (forall nd, In nd nodes -> exists k s, mine k s /\ cat_says k s nd) ->
  exists e', foldM (cat_step zn) nodes e = Ok e' /\ inv e0 (don ++ nodes) e'.
Proof.
  induction nodes as [|nd nodes IH]; intros don e I H; cbn [foldM].
  - exists e. rewrite app_nil_r. auto.
  - destruct (H nd (or_introl eq_refl)) as (k & s & M & C). destruct (step_inv e0 don e k s nd I M C) as (e1 & E & I1).
    rewrite E. cbn [bind]. destruct (IH (don ++ [nd]) e1 I1) as (e' & E' & I').
    + intros x Hx. apply H. right; auto.
    + exists e'. rewrite <- app_assoc in I'. auto.
Qed.
End Load.

Lemma total_same n (ts : list (tree Z N)) : Forall (fun t => size t = n) ts -> total_size ts = (length ts * n)%nat.
Proof. unfold total_size. induction 1 as [|t ts H _ IH]; cbn [map length]; auto. rewrite lsum_cons, IH, H. lia. Qed.
Lemma back_length n (ts : list (tree Z N)) : forall k, length (backwards n k ts) = length ts.
Proof. induction ts; intros; cbn [backwards length]; auto. Qed.
Lemma back_nth n (ts : list (tree Z N)) : forall k i, nth_error (backwards n k ts) i = option_map (relabel (fun j => Z.of_nat (k + i) * n + (n - 1 - j))) (nth_error ts i).
Proof.
  induction ts as [|t ts IH]; intros k i; cbn [backwards]; destruct i; cbn [nth_error option_map]; auto.
  - rewrite Nat.add_0_r. reflexivity.
  - rewrite IH. replace (S k + i)%nat with (k + S i)%nat by lia. reflexivity.
Qed.
Lemma back_sizes n (ts : list (tree Z N)) : forall k, map size (backwards n k ts) = map size ts.
Proof. induction ts as [|t ts IH]; intros; cbn [backwards map]; auto. rewrite size_relabel, IH. reflexivity. Qed.
Lemma back_consecutive n (ts : list (tree Z N)) : Forall (fun t => size t = n) ts -> Forall cat_tree ts ->
  forall k, consecutive (Z.of_nat k * Z.of_nat n) (backwards (Z.of_nat n) k ts).
Proof.
  induction 1 as [|t ts SZ _ IH]; intros CT k; cbn [backwards consecutive]; auto.
  inversion CT as [|? ? [P M] CT2]; subst. pose proof (size_pos t) as SP. split; [|split].
  - rewrite mark_relabel, M. lia.
  - rewrite size_relabel, marks_relabel. set (g := fun i : Z => _).
    apply NoDup_Permutation_bis.
    + apply (Permutation_NoDup (l := map g (zrange 0 (Z.of_nat (size t))))).
      * apply Permutation_map, Permutation_sym, P.
      * assert (K : forall l, NoDup l -> NoDup (map g l)).
        { induction 1 as [|x l NI _ IHl]; cbn [map]; constructor; auto. intros H. apply in_map_iff in H as (y & E & Hy). unfold g in E.
          assert (x = y) by lia. subst. contradiction. }
        apply K, zrange_nodup.
    + rewrite map_length, zrange_length, (marks_length t). lia.
    + intros x Hx. apply in_map_iff in Hx as (y & <- & Hy). apply (Permutation_in _ P) in Hy. apply in_zrange in Hy. apply in_zrange. unfold g. lia.
  - rewrite size_relabel. specialize (IH CT2 (S k)). replace (Z.of_nat k * Z.of_nat (size t) + Z.of_nat (size t)) with (Z.of_nat (S k) * Z.of_nat (size t)) by lia. exact IH.
Qed.

Theorem C45_lemma n ts nodes junk : cat_file ts nodes -> ts <> [] -> Forall cat_tree ts -> Forall fits16 ts ->
  Forall (fun t => size t = n) ts -> Z.of_nat n <= 65535 -> (length ts <= length junk)%nat ->
  exists e, cat_load junk nodes = Ok e /\
    laid_out e (backwards (Z.of_nat n) 0 (map conv ts)) (map (fun _ => none) ts).
Proof.
  intros F NE CT FT SZ NB LJ.
  assert (CC : cat_count junk nodes = Ok (Z.of_nat (length ts), Z.of_nat (total_size ts))).
  { eapply cat_count_ok; eauto. eapply Forall_impl; [|exact SZ]. cbn. intros; lia. }
  unfold cat_load. rewrite CC. cbn [bind fst snd].
  destruct (initialize_ok (N:=N) (length ts) (total_size ts)) as (e0 & J1 & J2 & J3 & J4 & J5 & J6 & J7 & J8).
  rewrite J1. cbn [bind].
  assert (TS := total_same n ts SZ).
  assert (DIV : Z.of_nat (total_size ts) / Z.of_nat (length ts) = Z.of_nat n).
  { rewrite TS, Nat2Z.inj_mul, Z.mul_comm. apply Z.div_mul. destruct ts; [congruence|cbn; lia]. }
  rewrite DIV.
  assert (I0 : inv n ts e0 [] e0).
  { constructor; auto.
    - rewrite J4, repeat_length; auto. - rewrite J5, repeat_length; auto.
    - rewrite TS, Nat2Z.inj_mul in J7. exact J7.
    - intros k s M. right. apply J8. pose proof (spot_bound n ts SZ CT k s M). rewrite J6, TS. lia.
    - intros k s nd []. }
  destruct (steps_inv n ts SZ CT FT e0 nodes [] e0 I0) as (e & E & I).
  { intros nd H. destruct (cat_only _ _ F nd H) as (k & t & s & H1 & H2 & H3). exists k, s. split; auto. exists t; auto. }
  exists e. split; [exact E|]. destruct I as [I1 I2 I3 I4 I5 I6 I7]. cbn [app] in I7.
  assert (SB : map size (backwards (Z.of_nat n) 0 (map conv ts)) = map size ts).
  { rewrite back_sizes, map_map. apply map_ext. intros; apply size_convert. }
  assert (LB : length (backwards (Z.of_nat n) 0 (map conv ts)) = length ts) by (rewrite back_length, map_length; reflexivity).
  unfold laid_out, encodes. unfold total_size at 1 2 3 4 5. rewrite SB, LB. fold (total_size ts).
  destruct I5 as (Z1 & Z2 & Z3 & Z4). rewrite TS.
  assert (ROOT : forall k t, nth_error ts k = Some t -> zget (e_root e) (Z.of_nat k) = Some (Z.of_nat k * Z.of_nat n) /\ zget (e_weight e) (Z.of_nat k) = Some none).
  { intros k t T. destruct (cat_last _ _ F k t T) as (a & nd & b & EN & CS & _).
    destruct (I7 k t nd) as [_ R]; auto. { rewrite EN. apply in_or_app; right; left; auto. } { exists t. split; auto. apply root_sub. }
    apply R. destruct (proj1 (Forall_forall _ _) CT t (nth_error_In _ _ T)) as [_ ->]. rewrite (proj1 (Forall_forall _ _) SZ t (nth_error_In _ _ T)). reflexivity. }
  split; [|split; [|lia]].
  - split; [congruence|]. split; [|split; [|split]].
    + apply zget_ext; [rewrite map_length; lia|]. intros j Hj. rewrite zget_map. unfold zget at 2. destruct (Z.ltb_spec j 0); [lia|].
      rewrite back_nth. destruct (nth_error ts (Z.to_nat j)) as [t|] eqn:T; [|apply nth_error_None in T; lia].
      rewrite (map_nth_error _ _ _ T). cbn [option_map]. destruct (ROOT _ t T) as [R _]. rewrite Z2Nat.id in R by lia. rewrite R. f_equal.
      rewrite mark_relabel, mark_convert. destruct (proj1 (Forall_forall _ _) CT t (nth_error_In _ _ T)) as [_ ->].
      pose proof (proj1 (Forall_forall _ _) SZ t (nth_error_In _ _ T)) as SS. cbn in SS. rewrite ?Nat.add_0_l, ?Z2Nat.id by lia. rewrite SS, ?Z2Nat.id by lia. lia.
    + apply zget_ext; [rewrite map_length; lia|]. intros j Hj. rewrite zget_map.
      destruct (nth_error ts (Z.to_nat j)) as [t|] eqn:T; [|apply nth_error_None in T; lia].
      destruct (ROOT _ t T) as [_ R]. rewrite Z2Nat.id in R by lia. rewrite R. unfold zget. destruct (Z.ltb_spec j 0); [lia|]. rewrite T. reflexivity.
    + rewrite map_length. reflexivity.
    + apply Forall_forall. intros t' H. apply In_nth_error in H as (k & H). rewrite back_nth in H. rewrite nth_error_map in H.
      destruct (nth_error ts k) as [t|] eqn:T; [|discriminate]. cbn [option_map] in H. injection H as <-.
      apply tops. intros s Hs. rewrite sub_relabel, sub_convert, map_map in Hs. apply in_map_iff in Hs as (s0 & <- & Hs0).
      destruct (cat_all _ _ F k t s0 T Hs0) as (nd & Hn & CS). destruct (I7 k s0 nd Hn) as [TP _]; auto. exists t; auto.
  - assert (BC := back_consecutive n (map conv ts)). cbn [Z.of_nat Z.mul] in BC. refine (BC _ _ 0%nat); clear BC.
    + apply Forall_map. eapply Forall_impl; [|exact SZ]. intros t Ht. cbn. rewrite size_convert. exact Ht.
    + apply Forall_map. eapply Forall_impl; [|exact CT]. intros t [P M]. unfold cat_tree. rewrite marks_convert, size_convert, mark_convert. auto.
Qed.

(** A tree with fewer nodes than the average never gets its root. *)
Theorem C45_unset_lemma ts (nodes : list cn) junk k t (e : ensemble N) : cat_file ts nodes -> Forall cat_tree ts ->
  Forall (fun t => Z.of_nat (size t) <= 65535) ts -> (length ts <= length junk)%nat ->
  nth_error ts k = Some t -> Z.of_nat (size t) < Z.of_nat (total_size ts) / Z.of_nat (length ts) ->
  cat_load junk nodes = Ok e -> zget (e_root e) (Z.of_nat k) = Some (-1).
Proof.
  intros F CT SZ LJ T LT L.
  assert (NE : ts <> []) by (destruct k, ts; discriminate).
  unfold cat_load in L. rewrite (cat_count_ok ts nodes junk F NE CT SZ LJ) in L. cbn [bind fst snd] in L.
  destruct (initialize_ok (N:=N) (length ts) (total_size ts)) as (e0 & J1 & J2 & J3 & J4 & _).
  rewrite J1 in L. cbn [bind] in L.
  rewrite (steps_roots _ (Z.of_nat k) _ _ _ L).
  - rewrite J4. apply zget_repeat. assert (k < length ts)%nat by (apply nth_error_Some; congruence). lia.
  - apply Forall_forall. intros nd H. split; [apply (cat_trees_bound _ _ F _ H)|]. intros E.
    destruct (cat_only _ _ F nd H) as (k' & t' & s & H1 & H2 & H3 & H4 & _). assert (k' = k) by lia. subst k'. assert (t' = t) by congruence. subst t'.
    rewrite H4. apply sub_marks in H2. destruct (proj1 (Forall_forall _ _) CT t (nth_error_In _ _ T)) as [P _].
    apply (Permutation_in _ P) in H2. apply in_zrange in H2. lia.
Qed.
End Cat.
