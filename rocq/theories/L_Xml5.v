(** Proofs for C87: models saved and loaded as files. *)
From Coq Require Import Ascii String List ZArith Lia Bool.
From Verif Require Import Base Lists Num M_Text S_Svmlight L_Text M_Float L_Float M_Dataset M_Ensemble S_Ensemble L_Ensemble L_Ensemble2 M_Loaders S_Loaders L_Loaders L_QuickRank L_Jforests L_Fixed L_Dot2 M_Xml S_Xml L_Xml L_Xml2 L_Xml3 L_Xml4.
Import ListNotations.
Local Open Scope Z_scope.

(** ** Documents written *)
Definition back_of (x : xml) : text := data_text (tail_of (pretty 0 (of_xml x))).
Lemma back_cases x : back_of x = [] \/ back_of x = [newline].
Proof. destruct x as [n a txt [|k kids]]; unfold back_of; cbn [of_xml map pretty tail_of vacant data_text]; [left|right]; reflexivity. Qed.
Lemma back_misc x : misc_text (back_of x) /\ no_cr (back_of x).
Proof. destruct (back_cases x) as [-> | ->]; (split; [|]); repeat constructor; cbn; try tauto; discriminate. Qed.
Theorem written_parts x : writable x -> no_cr (write_xml x) /\ document_parts (write_xml x) [] (core (pretty 0 (of_xml x))) (back_of x) (spaced 0 x).
Proof.
  intros W. destruct (core_written x W 0) as [E C]. destruct (back_misc x) as [M B]. unfold write_xml. rewrite serialize_core. fold (back_of x). split; [apply no_cr_app; assumption|].
  split; [reflexivity|]. split; [exists [], []; split; [reflexivity|split; [left; reflexivity|constructor]]|]. split; assumption.
Qed.
Theorem written_document x : writable x -> xml_document (write_xml x) (spaced 0 x).
Proof. intros W. destruct (written_parts x W) as [C D]. exists (write_xml x). do 3 eexists. split; [apply no_cr_lines, C|exact D]. Qed.
Lemma spaced_respaced x : writable x -> forall level, respaced x (spaced level x).
Proof.
  induction x as [n a txt kids IH] using xml_ind2. intros W level. inversion W as [n' a' txt' kids' NM AT ND TX WK]; subst. destruct kids as [|k0 ks].
  - cbn [spaced map]. apply rs_leaf. destruct txt as [[|c w]|]; auto.
  - set (kids := k0 :: ks) in *. assert (KN : kids <> []) by discriminate.
    replace (spaced level (Elem n a txt kids)) with (Elem n a (if vacant txt then Some (indent (S level)) else txt) (map (spaced (S level)) kids)) by (unfold kids; cbn [spaced]; rewrite indent_step; reflexivity).
    apply rs_kids; [exact KN| |].
    + destruct (vacant txt) eqn:V; [right|left; reflexivity]. split; [|apply indent_blank]. destruct txt as [w|]; [apply vacant_blank; assumption|exact I].
    + clearbody kids. clear KN W. induction kids as [|k l IHl]; [constructor|]. inversion_clear IH. inversion_clear WK. cbn [map]. constructor; auto.
Qed.
Theorem written_reads_back x : writable x -> exists y, xml_document (write_xml x) y /\ respaced x y.
Proof. intros W. exists (spaced 0 x). split; [apply written_document, W|apply spaced_respaced, W]. Qed.

(** ** Respaced documents *)
Lemma padded_nonempty s w : padded s w -> word w -> s <> [].
Proof. intros (a & b & _ & _ & ->) [NE _] E. destruct a; [|discriminate E]. destruct w; [contradiction NE; reflexivity|discriminate E]. Qed.
Lemma respaced_head x y : respaced x y -> exists n a txt kids txt' kids', x = Elem n a txt kids /\ y = Elem n a txt' kids' /\ Forall2 respaced kids kids'.
Proof. intros [n a txt txt' _|n a txt txt' kids kids' _ _ F]; do 6 eexists; (split; [reflexivity|split; [reflexivity|]]); [constructor|exact F]. Qed.
Lemma respaced_word n a s w y : respaced (Elem n a (Some s) []) y -> padded s w -> word w -> y = Elem n a (Some s) [].
Proof.
  intros R P W. inversion R as [n' a' t t' C|]; subst; [|contradiction]. destruct C as [-> |[E _]]; [reflexivity|]. injection E as ->. exfalso. apply (padded_nonempty [] w P W). reflexivity.
Qed.
Lemma int_dec_word t q : int_dec t q -> t <> [].
Proof. intros (sg & neg & ds & -> & _ & _ & NE & _) E. apply app_eq_nil in E as [_ E]. contradiction. Qed.
Lemma respaced_some n a s y : respaced (Elem n a (Some s) []) y -> s <> [] -> y = Elem n a (Some s) [].
Proof. intros R NE. inversion R as [n' a' t t' C|]; subst; [|contradiction]. destruct C as [-> |[E _]]; [reflexivity|]. injection E as ->. contradiction. Qed.
Lemma split_respaced t x : split_xml t x -> forall y, respaced x y -> split_xml t y.
Proof.
  induction 1 as [v attrs txt a s P W|f thr l r attrs txt a sf tf b st xl xr P1 I P2 W Hl IHl Hr IHr E1 E2]; intros y R.
  - destruct (respaced_head _ _ R) as (n' & a' & t' & k' & t2 & k2 & E & -> & F). injection E as <- <- <- <-. inversion F as [|? y1 ? ? R1 F1]; subst. inversion F1; subst.
    apply (respaced_word _ _ _ v) in R1; try assumption. subst y1. constructor; assumption.
  - destruct (respaced_head _ _ R) as (n' & a' & t' & k' & t2 & k2 & E & -> & F). injection E as <- <- <- <-. inversion F as [|? y1 ? ? R1 F1]; subst. inversion F1 as [|? y2 ? ? R2 F2]; subst.
    inversion F2 as [|? y3 ? ? R3 F3]; subst. inversion F3 as [|? y4 ? ? R4 F4]; subst. inversion F4; subst.
    apply respaced_some in R1. 2:{ destruct P1 as (u & v & _ & _ & ->). intros E. apply app_eq_nil in E as [_ E]. apply app_eq_nil in E as [E _]. apply (int_dec_word _ _ I E). }
    apply (respaced_word _ _ _ thr) in R2; try assumption. subst y1 y2.
    assert (A3 : x_attrs y3 = x_attrs xl) by (destruct (respaced_head _ _ R3) as (? & ? & ? & ? & ? & ? & -> & -> & _); reflexivity).
    assert (A4 : x_attrs y4 = x_attrs xr) by (destruct (respaced_head _ _ R4) as (? & ? & ? & ? & ? & ? & -> & -> & _); reflexivity).
    apply (split_node f thr l r attrs t2 a sf tf b st y3 y4); auto; [rewrite A3; exact E1|rewrite A4; exact E2].
Qed.
Lemma quiet_respaced tags x : forall y, respaced x y -> quiet tags x -> quiet tags y.
Proof.
  induction x as [n a txt kids IH] using xml_ind2. intros y R Q. destruct (respaced_head _ _ R) as (n' & a' & t' & k' & t2 & k2 & E & -> & F). injection E as <- <- <- <-. apply quiet_eq in Q as [Q1 Q2]. apply quiet_eq. split; [exact Q1|].
  clear R. induction F as [|k k' l l' R _ IHF]; [constructor|]. inversion_clear IH. inversion_clear Q2. constructor; auto.
Qed.
Lemma trees_respaced wts xs : Forall2 tree_xml wts xs -> forall ys, Forall2 respaced xs ys -> Forall2 tree_xml wts ys.
Proof.
  induction 1 as [|p x wts xs H _ IH]; intros ys F; inversion F as [|? y ? ys' R F']; subst; constructor; auto. clear IH F F'.
  destruct H as [w t attrs txt z E1 E2 E3]. destruct (respaced_head _ _ R) as (n' & a' & t' & k' & t2 & k2 & E & -> & F). injection E as <- <- <- <-. inversion F as [|? y1 ? ? R1 F1]; subst. inversion F1; subst.
  constructor; [exact E1|exact (split_respaced _ _ E2 _ R1)|]. destruct (respaced_head _ _ R1) as (? & ? & ? & ? & ? & ? & -> & -> & _). exact E3.
Qed.
Theorem quick_doc_respaced wts x y : quick_doc wts x -> respaced x y -> quick_doc wts y.
Proof.
  intros [tag attrs txt heads eattrs etxt xs tails H1 H2 H3 H4 H5] R. destruct (respaced_head _ _ R) as (n' & a' & t' & k' & t2 & k2 & E & -> & F). injection E as <- <- <- <-.
  apply Forall2_app_inv_l in F as (hs & r & F1 & F2 & ->). inversion F2 as [|? e ? ts' R1 F3]; subst.
  assert (QF : forall l l', Forall2 respaced l l' -> Forall (quiet quick_tags) l -> Forall (quiet quick_tags) l').
  { induction 1 as [|u u' l l' U _ IHl]; intros Q; [constructor|]. inversion_clear Q. constructor; [eapply quiet_respaced; eauto|auto]. }
  destruct (respaced_head _ _ R1) as (n2 & a2 & t3 & k3 & t4 & k4 & E & -> & F). injection E as <- <- <- <-.
  apply (quick_root wts tag attrs t2 hs eattrs t4 k4 ts'); [exact H1| |exact (QF _ _ F1 H3)|exact (QF _ _ F3 H4)|exact (trees_respaced _ _ H5 _ F)].
  intros ->. inversion F1; subst. contradiction.
Qed.

(** ** What saving writes can be written *)
Section Save.
Context {N : num}.
Variable repr : N -> text.
Hypothesis RD : forall v, Forall data_char (repr v).
Lemma names_ok : Forall xml_name ["ranker"; "info"; "type"; "trees"; "leaves"; "shrinkage"; "leafsupport"; "discretization"; "estop"; "ensemble"; "tree"; "split"; "output"; "feature"; "threshold"; "pos"; "id"; "weight"]%string.
Proof.
  assert (H : forall s, (match list_ascii_of_string s with c :: r => xletter c && forallb xletter r | [] => false end) = true -> xml_name s).
  { intros s H. destruct (list_ascii_of_string s) as [|c r] eqn:E; [discriminate H|]. apply andb_true_iff in H as [H1 H2]. exists c, r. split; [exact E|].
    assert (L : forall d, xletter d = true -> start_char d).
    { intros d D. unfold xletter in D. rewrite !orb_true_iff, !andb_true_iff, !Z.leb_le, Z.eqb_eq in D. unfold start_char. destruct D as [[D|D]|D]; [left; exact D|right; left; exact D|right; right; apply code_char; exact D]. }
    split; [apply L, H1|]. apply Forall_forall. intros d D. left. apply L. rewrite forallb_forall in H2. apply H2, D. }
  repeat constructor; apply H; reflexivity.
Qed.
Lemma name_ok n : In n ["ranker"; "info"; "type"; "trees"; "leaves"; "shrinkage"; "leafsupport"; "discretization"; "estop"; "ensemble"; "tree"; "split"; "output"; "feature"; "threshold"; "pos"; "id"; "weight"]%string -> xml_name n.
Proof. intros H. pose proof names_ok as F. rewrite Forall_forall in F. apply F, H. Qed.
Lemma digit_data c : digit_char c -> data_char c.
Proof. unfold digit_char. intros H. repeat (destruct H as [<-|H]; [split; [right; cbv; split; discriminate|discriminate]|]). contradiction. Qed.
Lemma show_data z : Forall data_char (show_Z z).
Proof.
  assert (M : data_char "-") by (split; [right; cbv; split; discriminate|discriminate]).
  destruct (show_shape z) as (c & ds & D & DS & E). assert (F : Forall data_char (c :: ds)) by (constructor; [apply digit_data, D|eapply Forall_impl; [|exact DS]; apply digit_data]).
  destruct E as [-> | ->]; [exact F|constructor; assumption].
Qed.
Lemma leaf_writable n t : xml_name n -> Forall data_char t -> writable (leaf_elem n t).
Proof. intros NM D. unfold leaf_elem. constructor; try assumption; constructor. Qed.
Lemma lit_data s : forallb (fun c => (32 <=? code c) && (code c <=? 127)) (lit s) = true -> Forall data_char (lit s).
Proof. intros H. rewrite forallb_forall in H. apply Forall_forall. intros c C. specialize (H c C). rewrite andb_true_iff, !Z.leb_le in H. split; [right; exact H|lia]. Qed.
Lemma quick_node_writable : forall fuel e i child x, (child = None \/ exists s, child = Some s /\ Forall data_char (lit s)) -> quick_node repr fuel e i child = Ok x -> writable x.
Proof.
  induction fuel as [|fuel IH]; intros e i child x CH H; [discriminate H|]. cbn [quick_node] in H.
  set (attrs := match child with Some c => [("pos"%string, lit c)] | None => [] end) in H.
  assert (AT : Forall (fun p => xml_name (fst p) /\ Forall xchar (snd p)) attrs /\ NoDup (map fst attrs)).
  { destruct CH as [-> |(s & -> & F)]; subst attrs; (split; [|]); repeat constructor; auto; [apply name_ok; cbn; tauto|apply data_xchar, F]. }
  destruct AT as [AT ND]. clearbody attrs. destruct (is_leaf_node e i) as [leaf|]; [|discriminate H]. cbn [bind] in H. destruct leaf.
  - destruct (py_get (e_value e) i) as [v|]; [|discriminate H]. cbn [bind] in H. injection H as <-. constructor; [apply name_ok; cbn; tauto|exact AT|exact ND|exact I|]. constructor; [|constructor]. apply leaf_writable; [apply name_ok; cbn; tauto|apply RD].
  - destruct (py_get (e_feature e) i) as [ft|]; [|discriminate H]. cbn [bind] in H. destruct (py_get (e_value e) i) as [v|]; [|discriminate H]. cbn [bind] in H.
    destruct (py_get (e_left e) i) as [l|]; [|discriminate H]. cbn [bind] in H. destruct (quick_node repr fuel e l (Some "left"%string)) as [xl|] eqn:L; [|discriminate H]. cbn [bind] in H.
    destruct (py_get (e_right e) i) as [r|]; [|discriminate H]. cbn [bind] in H. destruct (quick_node repr fuel e r (Some "right"%string)) as [xr|] eqn:R; [|discriminate H]. cbn [bind] in H. injection H as <-.
    constructor; [apply name_ok; cbn; tauto|exact AT|exact ND|exact I|].
    constructor; [apply leaf_writable; [apply name_ok; cbn; tauto|apply show_data]|]. constructor; [apply leaf_writable; [apply name_ok; cbn; tauto|apply RD]|].
    constructor; [refine (IH _ _ _ _ _ L); right; exists "left"%string; split; [reflexivity|apply lit_data; reflexivity]|]. constructor; [refine (IH _ _ _ _ _ R); right; exists "right"%string; split; [reflexivity|apply lit_data; reflexivity]|constructor].
Qed.
Theorem quick_save_writable (m : model N) x : quick_save repr m = Ok x -> writable x.
Proof.
  unfold quick_save. destruct (max_leaves (m_ens m)) as [ml|]; [|discriminate]. cbn [bind].
  match goal with |- context[mapM ?f ?l] => set (g := f); set (ids := l) end. intros H. destruct (mapM g ids) as [xs|] eqn:M; [|discriminate H]. cbn [bind] in H. injection H as <-.
  assert (TW : Forall writable xs).
  { clearbody ids. revert xs M. induction ids as [|t ids IH]; intros xs M; cbn [mapM] in M; [injection M as <-; constructor|]. destruct (g t) as [y|] eqn:G; [|discriminate M]. cbn [bind] in M.
    destruct (mapM g ids) as [ys|]; [|discriminate M]. cbn [bind] in M. injection M as <-. constructor; [|apply IH; reflexivity]. unfold g in G.
    destruct (py_get (e_weight (m_ens m)) t) as [w|]; [|discriminate G]. cbn [bind] in G. destruct (py_get (e_root (m_ens m)) t) as [r|]; [|discriminate G]. cbn [bind] in G.
    destruct (quick_node repr _ (m_ens m) r None) as [z|] eqn:Q; [|discriminate G]. cbn [bind] in G. injection G as <-.
    constructor; [apply name_ok; cbn; tauto| | |exact I|].
    - constructor; [split; [apply name_ok; cbn; tauto|apply data_xchar, show_data]|]. constructor; [split; [apply name_ok; cbn; tauto|apply data_xchar, RD]|constructor].
    - constructor; [cbn; intuition discriminate|]. constructor; [cbn; tauto|constructor].
    - constructor; [|constructor]. eapply quick_node_writable; [left; reflexivity|exact Q]. }
  constructor; [apply name_ok; cbn; tauto|constructor|constructor|exact I|]. constructor.
  - constructor; [apply name_ok; cbn; tauto|constructor|constructor|exact I|].
    constructor; [apply leaf_writable; [apply name_ok; cbn; tauto|apply (lit_data "MART"); reflexivity]|]. constructor; [apply leaf_writable; [apply name_ok; cbn; tauto|apply show_data]|]. constructor; [apply leaf_writable; [apply name_ok; cbn; tauto|apply show_data]|]. constructor; [apply leaf_writable; [apply name_ok; cbn; tauto|apply RD]|]. do 3 (constructor; [apply leaf_writable; [apply name_ok; cbn; tauto|apply (lit_data "0"); reflexivity]|]). constructor.
  - constructor; [|constructor]. constructor; [apply name_ok; cbn; tauto|constructor|constructor|exact I|exact TW].
Qed.
Lemma quick_save_kids (m : model N) x : quick_save repr m = Ok x -> exists n a k kids, x = Elem n a None (k :: kids).
Proof.
  unfold quick_save. destruct (max_leaves (m_ens m)) as [ml|]; [|discriminate]. cbn [bind]. match goal with |- context[mapM ?f ?l] => destruct (mapM f l) as [xs|]; [|discriminate] end. cbn [bind]. intros H. injection H as <-. do 4 eexists. reflexivity.
Qed.

(** ** Saving and loading *)
Variable rd : text -> option N.
Theorem save_load_text (m : model N) ts ws : encodes (m_ens m) ts ws -> ts <> [] ->
  (forall t v, In t ts -> In v (values t) -> reads_back rd repr v) -> Forall (reads_back rd repr) ws -> Forall fits16 ts ->
  exists t e', quick_save_text repr m = Ok t /\ quick_load_text rd t = Parsed (Ok e') /\ laid_out e' (preorder_all 0 ts) ws.
Proof.
  intros E NE RV RW FT. destruct (quick_save_ok repr m ts ws E NE) as (x & X1 & X2); [intros; eapply RV; eauto|].
  pose proof (quick_save_writable m x X1) as WX. pose proof (quick_doc_respaced _ _ _ X2 (spaced_respaced x WX 0)) as X3.
  pose proof (written_document x WX) as WD. apply reader_grammar in WD.
  assert (L : length ws = length ts) by apply E.
  destruct (C38_lemma rd _ _ X3) as (e' & Y1 & Y2).
  { apply Forall_forall. intros [w t] H. pose proof (in_combine_l _ _ _ _ H) as H1. pose proof (in_combine_r _ _ _ _ H) as H2.
    apply in_map_iff in H1. destruct H1 as (w0 & <- & H1). apply in_map_iff in H2. destruct H2 as (t0 & <- & H2).
    rewrite Forall_forall in RW, FT. unfold good. cbn [fst snd]. split; [apply RW; auto|]. split.
    - rewrite values_convert, values_erase. apply Forall_forall. intros s Hs. apply in_map_iff in Hs.
      destruct Hs as (v & <- & Hv). eapply RV; eauto.
    - unfold fits16. rewrite splits_convert, splits_erase. apply FT; auto. }
  exists (write_xml x), e'. split; [unfold quick_save_text; rewrite X1; reflexivity|]. split; [unfold quick_load_text; rewrite WD, Y1; reflexivity|].
  match type of Y2 with laid_out _ (preorder_all 0 ?a) ?b => assert (A : a = map erase ts); [|assert (B : b = ws)] end.
  - clear - L RV. revert ws L. induction ts as [|t ts IH]; intros [|w ws] L; try discriminate; auto.
    cbn [map combine snd]. f_equal.
    + apply convert_id. intros v Hv. rewrite values_erase in Hv. destruct (RV t v (or_introl eq_refl) Hv) as (_ & _ & K). auto.
    + apply IH; [|cbn in L; lia]. intros t' v H1 H2. apply (RV t'); auto. right; auto.
  - clear - L RW. revert ws L RW. induction ts as [|t ts IH]; intros [|w ws] L RW; try discriminate; auto.
    inversion RW as [|? ? K1 K2]; subst. cbn [map combine fst]. f_equal; [apply K1|]. apply IH; auto.
  - rewrite A, B, preorder_all_erase in Y2. exact Y2.
Qed.
(** A save cut short: the last character, a newline, is the only one that may miss. *)
Theorem interrupted_save (m : model N) t p s : quick_save_text repr m = Ok t -> t = p ++ s ->
  quick_load_text rd p = Malformed \/ ((s = [] \/ s = [newline]) /\ quick_load_text rd p = quick_load_text rd t).
Proof.
  unfold quick_save_text. destruct (quick_save repr m) as [x|] eqn:X; [|discriminate]. cbn [bind]. intros E. injection E as <-. intros E.
  pose proof (quick_save_writable m x X) as WX. destruct (written_parts x WX) as [NC D]. pose proof D as (T & _ & ET & BM). cbn [app] in T. set (root := core _) in *. set (back := back_of x) in *.
  assert (NP : no_cr p) by (unfold no_cr in *; rewrite E in NC; apply Forall_app in NC; tauto).
  destruct (Nat.lt_ge_cases (length p) (length root)) as [LT|GE].
  - left. unfold quick_load_text. rewrite (cut_file (write_xml x) (write_xml x) [] root back (spaced 0 x) p s p (no_cr_lines _ NC) D E (no_cr_lines _ NP) LT). reflexivity.
  - right. assert (P : exists q, p = root ++ q /\ back = q ++ s).
    { rewrite T in E. apply app_eq_app in E as (l & [[-> ->]|[-> ->]]); [|eexists; split; reflexivity]. rewrite app_length in GE. destruct l; [|cbn in GE; lia]. exists []. rewrite !app_nil_r. auto. }
    destruct P as (q & -> & B). assert (RT : read_xml (write_xml x) = Some (spaced 0 x)) by (apply reader_grammar, written_document, WX).
    assert (RP : xml_document (root ++ q) (spaced 0 x)).
    { exists (root ++ q), [], root, q. split; [apply no_cr_lines, NP|]. split; [reflexivity|]. split; [exists [], []; split; [reflexivity|split; [left; reflexivity|constructor]]|]. split; [exact ET|].
      destruct (back_cases x) as [K|K]; fold back in K; rewrite K in B; destruct q as [|c q]; try constructor; try discriminate B. { injection B as <- _. cbn; tauto. } injection B as _ B. symmetry in B. apply app_eq_nil in B as [-> _]. constructor. }
    apply reader_grammar in RP. split; [|unfold quick_load_text; rewrite RT, RP; reflexivity].
    destruct (back_cases x) as [K|K]; fold back in K; rewrite K in B; destruct q as [|c q]; cbn [app] in B; [left; auto|discriminate B|right; auto|left]. injection B as _ B. symmetry in B. apply app_eq_nil in B. tauto.
Qed.
End Save.

(** ** float32 models *)
Lemma num_char_data c : num_char c -> data_char c.
Proof. unfold num_char. cbn [lit list_ascii_of_string In]. intros H. repeat (destruct H as [<-|H]; [split; [right; cbv; split; discriminate|discriminate]|]). contradiction. Qed.
Lemma show32_data (v : F32N) : Forall data_char (show32 v).
Proof.
  change (car F32N) with Z in v. unfold show32, f32_of.
  assert (K : forall neg k, 0 <= k -> Forall data_char (show_f32 (Fin neg k))).
  { intros neg k Hk. cbn [show_f32]. destruct (Z.eqb_spec k 0) as [->|N0].
    - destruct neg; repeat constructor; cbv; try discriminate; right; split; discriminate.
    - assert (S : sign_text (if neg then lit "-" else []) neg) by (destruct neg; constructor).
      destruct (show_g_numeral _ _ (fval 23 k) (2 ^ 149) S) as (m & x & s & m0 & _ & NU & _); [rewrite <- (fval_0 23) by lia; apply fval_lt; lia|reflexivity|].
      apply numeral_chars in NU. eapply Forall_impl; [|exact NU]. apply num_char_data. }
  destruct (Z.ltb_spec v 0); apply K; lia.
Qed.
Theorem save_load_float32 (m : model F32N) (ts : list (tree Z F32N)) (ws : list F32N) :
  encodes (m_ens m) ts ws -> ts <> [] ->
  (forall t v, In t ts -> In v (values t) -> Z.abs v < f32_top) ->
  Forall (fun v => Z.abs v < f32_top) ws -> Forall fits16 ts ->
  exists t e', quick_save_text show32 m = Ok t /\ quick_load_text rd32 t = Parsed (Ok e') /\ laid_out e' (preorder_all 0 ts) ws.
Proof.
  intros EN NE V W F. apply (@save_load_text F32N show32 show32_data rd32 m ts ws); auto.
  - intros t v Ht Hv. apply show32_back. eapply V; eauto.
  - eapply Forall_impl; [|exact W]. intros v Hv. apply show32_back. exact Hv.
Qed.
Theorem interrupted_float32 (m : model F32N) t p s : quick_save_text show32 m = Ok t -> t = p ++ s ->
  quick_load_text rd32 p = Malformed \/ ((s = [] \/ s = [newline]) /\ quick_load_text rd32 p = quick_load_text rd32 t).
Proof. apply (@interrupted_save F32N show32 show32_data rd32). Qed.

(** ** Loading texts *)
Section Load.
Context {N : num}.
Variable rd : text -> option N.
Lemma unread t : (forall x, ~ xml_document t x) <-> read_xml t = None.
Proof.
  split; intros H.
  - destruct (read_xml t) as [x|] eqn:E; [|reflexivity]. apply reader_grammar in E. destruct (H x E).
  - intros x D. apply reader_grammar in D. congruence.
Qed.
Theorem quick_malformed t : (forall x, ~ xml_document t x) <-> quick_load_text rd t = Malformed.
Proof. rewrite unread. unfold quick_load_text. destruct (read_xml t); split; intros H; congruence. Qed.
Theorem jf_malformed t : (forall x, ~ xml_document t x) <-> jf_load_text rd t = Malformed.
Proof. rewrite unread. unfold jf_load_text. destruct (read_xml t); split; intros H; congruence. Qed.
Theorem quickrank_text wts t x : xml_document t x -> quick_doc wts x ->
  Forall (fun p => readable rd (fst p) /\ Forall (readable rd) (values (snd p)) /\ fits16 (snd p)) wts ->
  exists e, quick_load_text rd t = Parsed (Ok e) /\
    laid_out e (preorder_all 0 (map (fun p => convert (cell_of rd) (cell_of rd) (snd p)) wts))
               (map (fun p => cell_of rd (fst p)) wts).
Proof. intros D Q G. apply reader_grammar in D. destruct (C38_lemma rd wts x Q G) as (e & E & L). exists e. unfold quick_load_text. rewrite D, E. auto. Qed.
Theorem jforests_text (ps : list (text * arrays * tree Z text)) t x : xml_document t x -> jf_doc (map fst ps) x ->
  Forall (fun p => readable rd (fst (fst p)) /\ arr_tree (snd (fst p)) (snd p) /\ fits16 (snd p) /\
            Forall (readable rd) (a_threshold (snd (fst p))) /\ Forall (readable rd) (a_leaf (snd (fst p)))) ps ->
  exists e, jf_load_text rd t = Parsed (Ok e) /\
    laid_out e (map (convert (cell_of rd) (cell_of rd)) (placed 0 (map (fun p => (snd (fst p), snd p)) ps)))
               (map (fun p => cell_of rd (fst (fst p))) ps).
Proof. intros D Q G. apply reader_grammar in D. destruct (C44_lemma rd ps x Q G) as (e & E & L). exists e. unfold jf_load_text. rewrite D, E. auto. Qed.
End Load.
