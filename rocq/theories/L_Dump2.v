(** Proofs: XGBoost dumps (C41), scikit-learn dumps and exports (C43). *)
From Coq Require Import Ascii String List ZArith Lia Bool Permutation.
From Verif Require Import Base Lists Num M_Text M_Svmlight S_Svmlight L_Text L_Svmlight3 M_Dataset M_Ensemble S_Ensemble L_Ensemble L_Ensemble2 M_Loaders M_TextLoaders S_Loaders L_Loaders L_QuickRank L_Dump.
Import ListNotations.
Local Open Scope Z_scope.

(** Two annotations at once. *)
Fixpoint annotate {V} (i : Z) (t : tree Z V) : tree (Z * Z) V :=
  match t with
  | Leaf a v => Leaf (a, i) v
  | Node a f x l r => Node (a, i) f x (annotate (i + 1) l) (annotate (i + 1 + Z.of_nat (size l)) r)
  end.
Lemma annotate_fst {V} (t : tree Z V) : forall i, relabel fst (annotate i t) = t.
Proof. induction t; intros i; cbn; congruence. Qed.
Lemma annotate_snd {V} (t : tree Z V) : forall i, relabel snd (annotate i t) = preorder i t.
Proof. induction t; intros i; cbn; congruence. Qed.
Lemma size_annotate {V} (t : tree Z V) i : size (annotate i t) = size t.
Proof. rewrite <- (annotate_fst t i) at 2. symmetry. apply size_relabel. Qed.
Lemma relabel_relabel {A B C V} (f : A -> B) (g : B -> C) (t : tree A V) : relabel g (relabel f t) = relabel (fun x => g (f x)) t.
Proof. induction t; cbn; congruence. Qed.
Lemma relabel_id {A V} (t : tree A V) : relabel (fun x => x) t = t.
Proof. induction t; cbn; congruence. Qed.
Lemma splits_relabel {A B V} (g : A -> B) (t : tree A V) : splits (relabel g t) = splits t.
Proof. induction t; cbn; congruence. Qed.
Lemma thresholds_relabel {A B V} (g : A -> B) (t : tree A V) : thresholds (relabel g t) = thresholds t.
Proof. induction t; cbn; congruence. Qed.
Lemma outputs_relabel {A B V} (g : A -> B) (t : tree A V) : outputs (relabel g t) = outputs t.
Proof. induction t; cbn; congruence. Qed.
Lemma preorder_convert {A V W} (h k : V -> W) (t : tree A V) : forall i, preorder i (convert h k t) = convert h k (preorder i t).
Proof. induction t as [a v|a f x l IHl r IHr]; intros i; cbn; auto. rewrite IHl, IHr, size_convert. reflexivity. Qed.
Lemma relabel_convert {A B V W} (h k : V -> W) (g : A -> B) (t : tree A V) : relabel g (convert h k t) = convert h k (relabel g t).
Proof. induction t; cbn; congruence. Qed.

Section Xgb.
Context {N : num}.
Variable rd : text -> option N.
Variable lower : N -> N.
Notation cell := (cell_of rd).

Lemma until_comma_ok v tail : word v -> ~ In ","%char v -> comma_tail tail -> until_comma (v ++ tail) = v.
Proof.
  intros [W _] H T. destruct v as [|c v]; [congruence|]. cbn [app until_comma]. f_equal. apply before_app.
  - intros I. apply H. right; auto.
  - destruct T as [-> |(r & ->)]; [left; reflexivity|right; exists r; reflexivity].
Qed.
Lemma xgb_node_ok ind ti i tf f x tail nl :
  blanks ind -> nat_dec ti i -> nat_dec tf f -> word x -> quiet_text x -> quiet_text tail -> ~ In "]"%char tail -> eol nl ->
  let l := ind ++ ti ++ lit ":[f" ++ tf ++ lit "<" ++ x ++ lit "]" ++ tail ++ nl in
  xgb_node l = Some (i, f, x) /\ xgb_leaf l = None /\ booster_match l = None.
Proof.
  intros H1 H2 H3 H4 H5 H6 H7 H8. cbv zeta. unfold xgb_node, xgb_leaf.
  destruct (node_line "<" (or_introl eq_refl) ind ti i tf f x tail nl) as (K1 & K2 & K3); auto. rewrite K1, K2. auto.
Qed.
Lemma xgb_leaf_ok ind ti i v tail nl :
  blanks ind -> nat_dec ti i -> word v -> quiet_text v -> ~ In ","%char v -> comma_tail tail -> quiet_text tail -> eol nl ->
  let l := ind ++ ti ++ lit ":leaf=" ++ v ++ tail ++ nl in
  xgb_node l = None /\ xgb_leaf l = Some (i, v) /\ booster_match l = None.
Proof.
  intros H1 H2 H3 H4 H5 H6 H7 H8. cbv zeta. unfold xgb_node, xgb_leaf.
  destruct (leaf_line "<" (or_introl eq_refl) ind ti i v tail nl) as (K1 & K2 & K3); auto. rewrite K1, K2. rewrite until_comma_ok by auto. auto.
Qed.

(** The loader and any dump, once the indices are known. *)
Definition xgb_ok (t : tree Z text) : Prop := fits16 t /\ Forall (readable rd) (values t).
Lemma values_parts {A V} (P : V -> Prop) (t : tree A V) : Forall P (values t) <-> Forall P (thresholds t) /\ Forall P (outputs t).
Proof.
  induction t as [a v|a f x l IHl r IHr]; cbn [values thresholds outputs].
  - split; [intros H; split; [constructor|exact H]|tauto].
  - split.
    + intros H. inversion H as [|? ? A1 A2]; subst. apply Forall_app in A2. rewrite IHl, IHr in A2.
      destruct A2 as [[B1 B2] [B3 B4]]. split; [constructor; auto; apply Forall_app; auto|apply Forall_app; auto].
    + intros [H1 H2]. inversion H1 as [|? ? A1 A2]; subst. apply Forall_app in A2, H2.
      constructor; auto. apply Forall_app. rewrite IHl, IHr. tauto.
Qed.
Definition xgb_number (root num i : Z) : Z := num + root.
Lemma numbers_annotate t root : forall num, numbers_to xgb_number root num (annotate (root + num) t).
Proof.
  unfold xgb_number. induction t as [a v|a f x l IHl r IHr]; intros num; cbn [annotate numbers_to]; [lia|].
  split; [lia|]. split.
  - replace (root + num + 1) with (root + (num + 1)) by lia. apply IHl.
  - rewrite size_annotate. replace (root + num + 1 + Z.of_nat (size l)) with (root + (num + 1 + Z.of_nat (size l))) by lia. apply IHr.
Qed.
Fixpoint annotate_all (a : Z) (ts : list (tree Z text)) : list (tree (Z * Z) text) :=
  match ts with [] => [] | t :: r => annotate a t :: annotate_all (a + Z.of_nat (size t)) r end.
Lemma annotate_all_fst ts : forall a, map (relabel fst) (annotate_all a ts) = ts.
Proof. induction ts as [|t ts IH]; intros a; cbn; auto. rewrite annotate_fst, IH. reflexivity. Qed.
Lemma annotate_all_size ts : forall a, map size (annotate_all a ts) = map size ts.
Proof. induction ts as [|t ts IH]; intros a; cbn; auto. rewrite size_annotate, IH. reflexivity. Qed.
Lemma annotate_all_len ts : forall a, length (annotate_all a ts) = length ts.
Proof. induction ts as [|t ts IH]; intros a; cbn; auto. Qed.
Lemma annotate_all_conv (h k : text -> N) ts : forall a,
  map (fun t => convert h k (relabel snd t)) (annotate_all a ts) = preorder_all a (map (convert h k) ts).
Proof. induction ts as [|t ts IH]; intros a; cbn; auto. rewrite annotate_snd, IH, preorder_convert, size_convert. reflexivity. Qed.
Lemma map_const {A B C} (c : C) (l : list A) (l' : list B) : length l = length l' -> map (fun _ => c) l = map (fun _ => c) l'.
Proof. revert l'. induction l as [|x l IH]; intros [|y l'] H; try discriminate; cbn; auto. f_equal. apply IH. cbn in H; lia. Qed.
Lemma conv_size (h k : text -> N) ts : map size (map (fun t : tree (Z * Z) text => convert h k (relabel snd t)) ts) = map size ts.
Proof. rewrite map_map. apply map_ext. intros. rewrite size_convert, size_relabel. reflexivity. Qed.

Lemma xgb_good ts : Forall xgb_ok ts -> forall a,
  good_trees rd xgb_number (xgb_thr rd lower) (fun x => lower (cell x)) a (annotate_all a ts).
Proof.
  induction 1 as [|t ts [H1 H2] _ IH]; intros a; cbn [annotate_all good_trees]; auto. rewrite size_annotate. split; [|apply IH].
  apply values_parts in H2. destruct H2 as [H2 H3].
  unfold good_tree. split; [unfold fits16 in *; rewrite <- (annotate_fst t a), splits_relabel in H1; exact H1|].
  split; [|split; [|split]].
  - unfold texts_ok. rewrite <- (annotate_fst t a) in H2, H3. rewrite thresholds_relabel in H2. rewrite outputs_relabel in H3.
    split; [|exact H3]. eapply Forall_impl; [|exact H2]. intros x Hx. unfold xgb_thr. rewrite read_cell_ok by exact Hx. reflexivity.
  - pose proof (numbers_annotate t a 0) as K. rewrite Z.add_0_r in K. exact K.
  - destruct t; reflexivity.
  - rewrite <- marks_relabel, annotate_snd, marks_preorder, size_annotate. apply Permutation_refl.
Qed.

Theorem C41_lemma ts ls f : xgb_lines 0 ts ls -> file_text f ls -> Forall xgb_ok ts ->
  exists e, xgb_load rd lower f = Ok e /\
    laid_out e (preorder_all 0 (map (convert (fun x => lower (cell x)) cell) ts)) (map (fun _ => none) ts).
Proof.
  intros D F G. unfold xgb_load. rewrite (file_lines_text f ls F). unfold dump_count.
  rewrite (dump_count_trees xgb_node xgb_leaf "<" comma_tail xgb_node_ok xgb_leaf_ok 0 ts ls D). cbn [fst snd]. rewrite !Z.add_0_l.
  destruct (initialize_ok (N:=N) (length ts) (list_sum (map size ts))) as (e0 & I1 & I2 & I3 & I4 & I5 & I6 & I7 & I8).
  rewrite I1. cbn [bind].
  destruct (dump_all rd xgb_node xgb_leaf xgb_number (xgb_thr rd lower) (fun x => lower (cell x)) "<" comma_tail xgb_node_ok xgb_leaf_ok
    0 (annotate_all 0 ts) ls) with (kn := 0%nat) (a := 0) (e := e0) (root := 0) (num := 0) (b := @None N) (lr := @None N) as (e' & r' & n' & C1 & C2).
  { rewrite annotate_all_fst. exact D. } { reflexivity. } { reflexivity. } { apply xgb_good. exact G. }
  { rewrite I6. exact I7. } { lia. } { rewrite annotate_all_size. lia. } { exact I8. }
  { rewrite annotate_all_len, I4, repeat_length. lia. } { rewrite annotate_all_len, I5, repeat_length. lia. }
  exists e'. split.
  - unfold xgb_step. fold xgb_number. rewrite C1. reflexivity.
  - rewrite (map_const none ts (annotate_all 0 ts)) by (symmetry; apply annotate_all_len).
    rewrite <- annotate_all_conv. eapply chain_laid_out; [exact C2| | | | |];
      unfold total_size; rewrite ?map_length, ?conv_size, ?annotate_all_size, ?annotate_all_len; assumption.
Qed.
End Xgb.

Section Sk.
Context {N : num}.
Variable rd : text -> option N.
Notation cell := (cell_of rd).
Lemma sk_node_ok ind ti i tf f x tail nl :
  blanks ind -> nat_dec ti i -> nat_dec tf f -> word x -> quiet_text x -> quiet_text tail -> ~ In "]"%char tail -> eol nl ->
  let l := ind ++ ti ++ lit ":[f" ++ tf ++ lit "<=" ++ x ++ lit "]" ++ tail ++ nl in
  sk_node l = Some (i, f, x) /\ sk_leaf l = None /\ booster_match l = None.
Proof.
  intros H1 H2 H3 H4 H5 H6 H7 H8. cbv zeta. unfold sk_node, sk_leaf.
  destruct (node_line "<=" (or_intror eq_refl) ind ti i tf f x tail nl) as (K1 & K2 & K3); auto.
Qed.
Lemma sk_leaf_ok ind ti i v tail nl :
  blanks ind -> nat_dec ti i -> word v -> quiet_text v -> ~ In ","%char v -> no_tail tail -> quiet_text tail -> eol nl ->
  let l := ind ++ ti ++ lit ":leaf=" ++ v ++ tail ++ nl in
  sk_node l = None /\ sk_leaf l = Some (i, v) /\ booster_match l = None.
Proof.
  intros H1 H2 H3 H4 H5 H6 H7 H8. cbv zeta. unfold sk_node, sk_leaf.
  destruct (leaf_line "<=" (or_intror eq_refl) ind ti i v tail nl) as (K1 & K2 & K3); auto. unfold no_tail in H6. subst tail. rewrite app_nil_r in K2. split; [exact K1|split; [exact K2|exact K3]].
Qed.
Definition sk_number (root num i : Z) : Z := i + root.
Definition sk_ok (t : tree Z text) : Prop := fits16 t /\ Forall (readable rd) (values t) /\ own_numbers t.
Definition both (a : Z) (t : tree Z text) : tree (Z * Z) text := relabel (fun i => (i, a + i)) t.
Lemma both_fst a t : relabel fst (both a t) = t.
Proof. unfold both. rewrite relabel_relabel. apply relabel_id. Qed.
Lemma both_snd a t : relabel snd (both a t) = relabel (Z.add a) t.
Proof. unfold both. rewrite relabel_relabel. reflexivity. Qed.
Fixpoint both_all (a : Z) (ts : list (tree Z text)) : list (tree (Z * Z) text) :=
  match ts with [] => [] | t :: r => both a t :: both_all (a + Z.of_nat (size t)) r end.
Lemma both_all_fst ts : forall a, map (relabel fst) (both_all a ts) = ts.
Proof. induction ts as [|t ts IH]; intros a; cbn [both_all map]; auto. rewrite both_fst, IH. reflexivity. Qed.
Lemma both_all_size ts : forall a, map size (both_all a ts) = map size ts.
Proof. induction ts as [|t ts IH]; intros a; cbn [both_all map]; auto. unfold both. rewrite size_relabel, IH. reflexivity. Qed.
Lemma both_all_len ts : forall a, length (both_all a ts) = length ts.
Proof. induction ts as [|t ts IH]; intros a; cbn; auto. Qed.
Lemma both_all_conv (h k : text -> N) ts : forall a,
  map (fun t => convert h k (relabel snd t)) (both_all a ts) = shifted a (map (convert h k) ts).
Proof. induction ts as [|t ts IH]; intros a; cbn [both_all map shifted]; auto. rewrite both_snd, IH, relabel_convert, size_convert. reflexivity. Qed.
Lemma numbers_both a t : forall num, numbers_to sk_number a num (both a t).
Proof. unfold both, sk_number. induction t; intros num; cbn [relabel numbers_to]; [lia|]. split; [lia|]. auto. Qed.
Lemma map_zrange a n : map (Z.add a) (zrange 0 n) = zrange a (a + n).
Proof.
  unfold zrange. rewrite map_map. replace (a + n - a) with (n - 0) by lia. apply map_ext. intros; lia.
Qed.
Lemma sk_good ts : Forall sk_ok ts -> forall a, good_trees rd sk_number (read_cell rd) cell a (both_all a ts).
Proof.
  induction 1 as [|t ts (H1 & H2 & H3 & H4) _ IH]; intros a; cbn [both_all good_trees]; auto. unfold both at 2. rewrite size_relabel. split; [|apply IH].
  apply values_parts in H2. destruct H2 as [H2 H5].
  unfold good_tree. split; [unfold fits16, both; rewrite splits_relabel; exact H1|].
  split; [|split; [|split]].
  - unfold texts_ok, both. rewrite thresholds_relabel, outputs_relabel.
    split; [|exact H5]. eapply Forall_impl; [|exact H2]. intros x Hx. apply read_cell_ok. exact Hx.
  - apply numbers_both.
  - unfold both. rewrite mark_relabel. cbn [snd]. lia.
  - rewrite <- marks_relabel, both_snd, marks_relabel. unfold both. rewrite size_relabel. rewrite <- map_zrange.
    apply Permutation_map. exact H4.
Qed.

(** Lines of the dump are none of the two headers. *)
Definition no_header (l : text) : Prop := key_match "base_score=" l = None /\ key_match "learning_rate=" l = None.
Lemma header_first c l : c <> "b"%char -> c <> "l"%char -> no_header (c :: l).
Proof.
  intros H1 H2. unfold no_header, key_match. cbn [lit list_ascii_of_string strip].
  destruct (Ascii.eqb_spec "b" c); [congruence|]. destruct (Ascii.eqb_spec "l" c); [congruence|]. auto.
Qed.
Lemma header_indent ind ti i r : blanks ind -> nat_dec ti i -> no_header (ind ++ ti ++ r).
Proof.
  intros B (D & E & _). destruct ind as [|c ind].
  - destruct ti as [|c ti]; [congruence|]. inversion D as [|? ? D1 D2]; subst. cbn [app].
    apply header_first; intros ->; cbn in D1; intuition discriminate.
  - inversion B as [|? ? B1 B2]; subst. cbn [app]. apply header_first; intros ->; cbn in B1; intuition discriminate.
Qed.
Lemma dump_tree_header op lt t ls : dump_tree op lt t ls -> Forall no_header ls.
Proof.
  induction 1; [constructor; [|constructor]; eapply header_indent; eauto|].
  constructor; [eapply header_indent; eauto|apply Forall_app; auto].
Qed.
Lemma dump_trees_header op lt k ts ls : dump_trees op lt k ts ls -> Forall no_header ls.
Proof.
  induction 1 as [|k tk rest t ll ts ls NK DT DS IH]; constructor; [split; reflexivity|].
  apply Forall_app. split; auto. eapply dump_tree_header; eauto.
Qed.
Notation line := (dump_line rd sk_node sk_leaf sk_number (read_cell rd)).
Lemma sk_steps ls : Forall no_header ls -> forall s, foldM (sk_step rd) ls s = foldM line ls s.
Proof.
  induction 1 as [|l ls [H1 H2] _ IH]; intros s; cbn [foldM]; auto.
  unfold sk_step at 1. rewrite H1, H2. change (fun root _ i : Z => i + root) with sk_number. destruct (line s l); cbn [bind]; auto.
Qed.
Lemma header_line key t nl : quiet_text t -> t <> [] -> eol nl -> key_match key (lit key ++ t ++ nl) = Some t.
Proof. intros [H _] _ E. unfold key_match. rewrite strip_app, before_eol by auto. reflexivity. Qed.
Lemma header_count key t nl : ~ In ":"%char (lit key) -> booster_match (lit key ++ t ++ nl) = None -> quiet_text t -> eol nl ->
  booster_match (lit key ++ t ++ nl) = None /\ sk_node (lit key ++ t ++ nl) = None /\ sk_leaf (lit key ++ t ++ nl) = None.
Proof.
  intros H B [_ Q] E. split; auto.
  assert (K : ~ In ":"%char (lit key ++ t ++ nl)).
  { intros I. apply in_app_or in I. destruct I as [I|I]; auto. apply in_app_or in I. destruct I as [I|I]; auto.
    destruct E as [-> | ->]; [destruct I|]. destruct I as [I|[]]; discriminate. }
  unfold sk_node, sk_leaf. split; apply search_none; auto; [apply node_at_colon|apply leaf_at_colon].
Qed.

Theorem C43_load_lemma ts base lr ls f b l : sk_lines ts base lr ls -> file_text f ls -> Forall sk_ok ts ->
  rd base = Some b -> rd lr = Some l ->
  exists e, sk_load rd f = Ok (e, Some b, Some l) /\
    laid_out e (shifted 0 (map (convert cell cell) ts)) (map (fun _ => none) ts).
Proof.
  intros D F G RB RL. destruct D as [nb nl ls Q1 Q2 N1 N2 E1 E2 D].
  unfold sk_load. rewrite (file_lines_text f _ F). unfold dump_count. cbn [fold_left].
  destruct (header_count "base_score=" base nb) as (A1 & A2 & A3); [cbn; intuition discriminate|reflexivity|assumption|assumption|].
  destruct (header_count "learning_rate=" lr nl) as (B1 & B2 & B3); [cbn; intuition discriminate|reflexivity|assumption|assumption|].
  rewrite A1, A2, A3, B1, B2, B3. cbn [fst snd]. rewrite !Z.add_0_l.
  rewrite (dump_count_trees sk_node sk_leaf "<=" no_tail sk_node_ok sk_leaf_ok 0 ts ls D). cbn [fst snd]. rewrite !Z.add_0_l.
  destruct (initialize_ok (N:=N) (length ts) (list_sum (map size ts))) as (e0 & I1 & I2 & I3 & I4 & I5 & I6 & I7 & I8).
  rewrite I1. cbn [bind].
  destruct (dump_all rd sk_node sk_leaf sk_number (read_cell rd) cell "<=" no_tail sk_node_ok sk_leaf_ok
    0 (both_all 0 ts) ls) with (kn := 0%nat) (a := 0) (e := e0) (root := 0) (num := 0) (b := Some b) (lr := Some l) as (e' & r' & n' & C1 & C2).
  { rewrite both_all_fst. exact D. } { reflexivity. } { reflexivity. } { apply sk_good. exact G. }
  { rewrite I6. exact I7. } { lia. } { rewrite both_all_size. lia. } { exact I8. }
  { rewrite both_all_len, I4, repeat_length. lia. } { rewrite both_all_len, I5, repeat_length. lia. }
  exists e'. split.
  - cbn [foldM]. unfold sk_step at 1. rewrite (header_line "base_score=") by auto.
    destruct base as [|c base]; [congruence|]. rewrite RB. cbn [of_option bind d_ens d_root d_num d_queue d_base d_lr].
    unfold sk_step at 1. rewrite (header_line "learning_rate=") by auto.
    destruct lr as [|c' lr]; [congruence|]. rewrite RL.
    replace (key_match "base_score=" (lit "learning_rate=" ++ (c' :: lr) ++ nl)) with (@None text) by reflexivity.
    cbn [of_option bind d_ens d_root d_num d_queue d_base d_lr].
    rewrite sk_steps by (eapply dump_trees_header; eauto). rewrite C1. reflexivity.
  - rewrite (map_const none ts (both_all 0 ts)) by (symmetry; apply both_all_len).
    rewrite <- both_all_conv. eapply chain_laid_out; [exact C2| | | | |];
      unfold total_size; rewrite ?map_length, ?conv_size, ?both_all_size, ?both_all_len; assumption.
Qed.
End Sk.
