(** Proofs for C87: what is written reads back. *)
From Coq Require Import Ascii String List ZArith Lia Bool.
From Verif Require Import Base Lists Num M_Text S_Svmlight M_Ensemble S_Ensemble M_Loaders S_Loaders M_Xml S_Xml L_Text L_QuickRank L_Xml L_Xml2 L_Xml3.
Import ListNotations.
Local Open Scope Z_scope.

Fixpoint spaced (level : nat) (x : xml) : xml :=
  let '(Elem n a txt kids) := x in
  Elem n a (match kids with [] => match txt with Some [] => None | _ => txt end | _ => if vacant txt then Some (newline :: repeat tab level ++ [tab]) else txt end)
       (map (spaced (S level)) kids).
Definition no_cr (t : text) : Prop := Forall (fun c => code c <> 13) t.
Lemma no_cr_lines : forall t, no_cr t -> lines_read t t.
Proof. induction 1 as [|c t H _ IH]; [constructor|]. apply lr_other; [intros ->; apply H; reflexivity|exact IH]. Qed.
Lemma no_cr_app a b : no_cr a -> no_cr b -> no_cr (a ++ b).
Proof. intros. apply Forall_app. auto. Qed.
Lemma no_cr_lit (s : string) : forallb (fun c => negb (code c =? 13)) (lit s) = true -> no_cr (lit s).
Proof. intros H. rewrite forallb_forall in H. apply Forall_forall. intros c C. specialize (H c C). apply negb_true_iff, Z.eqb_neq in H. exact H. Qed.
Lemma inner_no_cr c : inner_char c -> code c <> 13.
Proof. intros I E. apply (blank_not_inner c); [unfold xblank; rewrite E; cbn; tauto|exact I]. Qed.
Lemma name_no_cr n : xml_name n -> no_cr (lit n).
Proof. intros (c & r & E & S & F). unfold lit. rewrite E. constructor; [apply inner_no_cr, start_inner, S|]. eapply Forall_impl; [|exact F]. apply inner_no_cr. Qed.

(** Attributes *)
Lemma escape_attr_cases c : (exists s, escape_attr c = s /\ ref_text s c) \/ (escape_attr c = [c] /\ c <> """"%char /\ c <> "&"%char /\ c <> "<"%char /\ (~ xblank c \/ c = " "%char)).
Proof.
  unfold escape_attr, escape_data. destruct (Ascii.eqb_spec c """") as [->|N1]; [left; eexists; split; [reflexivity|apply (ref_entity "quot"); cbn; tauto]|].
  destruct (Z.eqb_spec (code c) 13) as [E|N2].
  { apply cr_code in E. subst c. left. eexists. split; [reflexivity|]. apply (ref_decimal (lit "13")); [|left; cbn; tauto]. split; [discriminate|]. exists [1; 3]. split; [|reflexivity]. repeat constructor; cbn; tauto. }
  destruct (Z.eqb_spec (code c) 10) as [E|N3].
  { apply lf_code in E. subst c. left. eexists. split; [reflexivity|]. apply (ref_decimal (lit "10")); [|left; cbn; tauto]. split; [discriminate|]. exists [1; 0]. split; [|reflexivity]. repeat constructor; cbn; tauto. }
  destruct (Z.eqb_spec (code c) 9) as [E|N4].
  { assert (c = tab) by (apply code_char; rewrite E; reflexivity). subst c. left. eexists. split; [reflexivity|]. apply (ref_decimal (lit "09")); [|left; cbn; tauto]. split; [discriminate|]. exists [0; 9]. split; [|reflexivity]. repeat constructor; cbn; tauto. }
  destruct (Ascii.eqb_spec c "&") as [->|N5]; [left; eexists; split; [reflexivity|apply (ref_entity "amp"); cbn; tauto]|].
  destruct (Ascii.eqb_spec c "<") as [->|N6]; [left; eexists; split; [reflexivity|apply (ref_entity "lt"); cbn; tauto]|].
  destruct (Ascii.eqb_spec c ">") as [->|N7]; [left; eexists; split; [reflexivity|apply (ref_entity "gt"); cbn; tauto]|].
  right. repeat split; try assumption. destruct (xspace c) eqn:B; [|left; apply xspace_no, B]. right. apply xspace_iff in B. unfold xblank in B. cbn [In] in B. apply code_char. change (code " ") with 32. intuition lia.
Qed.
Lemma attr_value : forall v, Forall xchar v -> value_text """" (flat_map escape_attr v) v.
Proof.
  induction 1 as [|c v X _ IH]; [constructor|]. cbn [flat_map]. destruct (escape_attr_cases c) as [(s & -> & R)|(-> & N1 & N2 & N3 & B)]; [apply val_ref; assumption|].
  cbn [app]. apply val_char; try assumption. destruct B as [B| ->]; [right; split; [exact B|reflexivity]|left; split; [cbn; tauto|reflexivity]].
Qed.
Lemma attrs_written : forall a, Forall (fun p => xml_name (fst p) /\ Forall xchar (snd p)) a -> attrs_text (flat_map attr_text a) a.
Proof.
  induction 1 as [|[n v] a [NM X] _ IH]; [constructor|]. cbn [flat_map]. unfold attr_text at 1. cbn [fst snd] in *. rewrite <- !app_assoc.
  apply (attrs_more (lit " ") n [] [] """" (flat_map escape_attr v) v).
  - constructor; [cbn; tauto|constructor].
  - discriminate.
  - exact NM.
  - constructor.
  - constructor.
  - left. reflexivity.
  - apply attr_value, X.
  - exact IH.
Qed.
Lemma escape_no_cr c : xchar c -> no_cr (escape_attr c).
Proof.
  intros _. unfold escape_attr, escape_data. destruct (Ascii.eqb c """"); [apply no_cr_lit; reflexivity|]. destruct (Z.eqb_spec (code c) 13); [apply no_cr_lit; reflexivity|].
  destruct (code c =? 10); [apply no_cr_lit; reflexivity|]. destruct (code c =? 9); [apply no_cr_lit; reflexivity|]. destruct (Ascii.eqb c "&"); [apply no_cr_lit; reflexivity|].
  destruct (Ascii.eqb c "<"); [apply no_cr_lit; reflexivity|]. destruct (Ascii.eqb c ">"); [apply no_cr_lit; reflexivity|]. constructor; [assumption|constructor].
Qed.
Lemma flat_no_cr {A} (f : A -> text) l : Forall (fun x => no_cr (f x)) l -> no_cr (flat_map f l).
Proof. induction 1; [constructor|]. apply no_cr_app; assumption. Qed.
Lemma attrs_no_cr : forall a, Forall (fun p => xml_name (fst p) /\ Forall xchar (snd p)) a -> no_cr (flat_map attr_text a).
Proof.
  intros a H. apply flat_no_cr. eapply Forall_impl; [|exact H]. intros [n v] [NM X]. unfold attr_text. cbn [fst snd] in *. repeat apply no_cr_app; try (apply no_cr_lit; reflexivity); [apply (name_no_cr n NM)|].
  apply flat_no_cr. eapply Forall_impl; [|exact X]. intros c. apply escape_no_cr.
Qed.

(** Texts *)
Definition shut (t : text) : Prop := t = [] \/ exists u, t = "<"%char :: u.
Lemma escaped_head w t r : shut t -> flat_map escape_data w ++ t <> ">"%char :: r.
Proof.
  intros S E. destruct w as [|c w]; cbn [flat_map app] in E.
  - destruct S as [-> |[u ->]]; discriminate E.
  - unfold escape_data in E. destruct (Ascii.eqb_spec c "&"); [discriminate E|]. destruct (Ascii.eqb_spec c "<"); [discriminate E|]. destruct (Ascii.eqb_spec c ">"); [discriminate E|]. injection E as E _. contradiction.
Qed.
Lemma content_data : forall w t l, Forall xchar w -> shut t -> content_text t l -> content_text (flat_map escape_data w ++ t) (map inl w ++ l).
Proof.
  induction w as [|c w IH]; intros t l F S H; [exact H|]. inversion_clear F. specialize (IH t l H1 S H). cbn [flat_map map app]. rewrite <- app_assoc. unfold escape_data at 1.
  destruct (Ascii.eqb_spec c "&") as [->|N1]; [apply (con_ref (lit "&amp;") "&"); [apply (ref_entity "amp"); cbn; tauto|exact IH]|].
  destruct (Ascii.eqb_spec c "<") as [->|N2]; [apply (con_ref (lit "&lt;") "<"); [apply (ref_entity "lt"); cbn; tauto|exact IH]|].
  destruct (Ascii.eqb_spec c ">") as [->|N3]; [apply (con_ref (lit "&gt;") ">"); [apply (ref_entity "gt"); cbn; tauto|exact IH]|].
  cbn [app]. apply con_char; try assumption. intros r E. injection E as _ E. destruct w as [|d w]; cbn [flat_map app] in E.
  - destruct S as [-> |[u ->]]; discriminate E.
  - rewrite <- app_assoc in E. unfold escape_data at 1 in E. destruct (Ascii.eqb_spec d "&"); [discriminate E|]. destruct (Ascii.eqb_spec d "<"); [discriminate E|]. destruct (Ascii.eqb_spec d ">"); [discriminate E|].
    injection E as _ E. exact (escaped_head w t r S E).
Qed.
Lemma data_no_cr w : Forall data_char w -> no_cr (flat_map escape_data w).
Proof.
  intros H. apply flat_no_cr. eapply Forall_impl; [|exact H]. intros c [_ C]. unfold escape_data.
  destruct (Ascii.eqb c "&"); [apply no_cr_lit; reflexivity|]. destruct (Ascii.eqb c "<"); [apply no_cr_lit; reflexivity|]. destruct (Ascii.eqb c ">"); [apply no_cr_lit; reflexivity|]. constructor; [exact C|constructor].
Qed.
(** Indentation *)
Definition indent (level : nat) : text := newline :: repeat tab level.
Lemma indent_blank level : xblanks (indent level).
Proof. unfold indent. constructor; [cbn; tauto|]. apply Forall_forall. intros c C. apply repeat_spec in C. subst c. cbn; tauto. Qed.
Lemma indent_step level : newline :: repeat tab level ++ [tab] = indent (S level).
Proof. unfold indent. f_equal. change [tab] with (repeat tab 1). rewrite <- repeat_app. f_equal. lia. Qed.
Lemma indent_data level : Forall data_char (indent level).
Proof. unfold indent. constructor; [split; [left; cbn; tauto|discriminate]|]. apply Forall_forall. intros c C. apply repeat_spec in C. subst c. split; [left; cbn; tauto|discriminate]. Qed.
Lemma data_xchar w : Forall data_char w -> Forall xchar w. Proof. apply Forall_impl. intros c [H _]. exact H. Qed.

(** Elements *)
Definition core (x : node) : text := serialize (set_tail x None).
Definition tail_of (x : node) : option text := let '(Nd _ _ _ t _) := x in t.
Lemma serialize_core x : serialize x = core x ++ data_text (tail_of x).
Proof. destruct x as [n a txt tail kids]. unfold core. cbn [set_tail tail_of serialize data_text]. rewrite app_nil_r. rewrite <- !app_assoc. reflexivity. Qed.
Lemma core_set_tail x t : core (set_tail x t) = core x.
Proof. destruct x. reflexivity. Qed.
Lemma core_begin x : exists u, core x = "<"%char :: u.
Proof. destruct x as [n a txt tail kids]. eexists. reflexivity. Qed.
Lemma pretty_tail level x : tail_of (pretty (S level) (of_xml x)) = Some (indent (S level)).
Proof. destruct x as [n a txt kids]. cbn [of_xml pretty]. destruct (map of_xml kids); reflexivity. Qed.
Definition tails_blank (l : list node) : Prop := Forall (fun k => exists j, tail_of k = Some (indent j)) l.
Lemma last_tail_core i l : map core (last_tail i l) = map core l.
Proof. induction l as [|x [|y l] IH]; [reflexivity|cbn [last_tail map]; rewrite core_set_tail; reflexivity|]. change (last_tail i (x :: y :: l)) with (x :: last_tail i (y :: l)). cbn [map] in *. rewrite IH. reflexivity. Qed.
Lemma last_tail_blank j l : tails_blank l -> tails_blank (last_tail (indent j) l).
Proof.
  unfold tails_blank. induction l as [|x [|y l] IH]; intros H; [constructor|constructor; [exists j; destruct x; reflexivity|constructor]|].
  change (last_tail (indent j) (x :: y :: l)) with (x :: last_tail (indent j) (y :: l)). inversion_clear H. constructor; [assumption|apply IH; assumption].
Qed.
Lemma kids_written : forall (l : list node) (xs : list xml), tails_blank l -> Forall2 (fun c x => element_text c x) (map core l) xs ->
  exists ps, content_text (flat_map serialize l) ps /\ kids_of ps = xs /\ (forall c r, ps <> inl c :: r) /\ shut (flat_map serialize l).
Proof.
  induction l as [|k l IH]; intros xs B H; cbn [map] in H; inversion H as [|c x cs xs' E H']; subst.
  - exists []. split; [constructor|]. split; [reflexivity|]. split; [discriminate|left; reflexivity].
  - inversion_clear B. destruct (IH xs' H1 H') as (ps & C & K & _ & S). destruct H0 as [j T].
    exists (inr x :: map inl (indent j) ++ ps). cbn [flat_map]. rewrite serialize_core, T. cbn [data_text]. rewrite <- app_assoc. split.
    + apply con_kid; [exact E|]. apply content_data; [apply data_xchar, indent_data|exact S|exact C].
    + split; [|split; [discriminate|]].
      * cbn [kids_of]. f_equal. rewrite <- K. rewrite !kids_map, flat_map_app. replace (flat_map _ (map inl (indent j))) with (@nil xml); [reflexivity|]. clear T. induction (indent j) as [|d w IHw]; [reflexivity|exact IHw].
      * right. destruct (core_begin k) as [u ->]. eexists. reflexivity.
Qed.
Lemma kids_no_cr : forall l, tails_blank l -> Forall no_cr (map core l) -> no_cr (flat_map serialize l).
Proof.
  intros l B H. apply flat_no_cr. unfold tails_blank in B. induction l as [|k l IH]; [constructor|]. cbn [map] in H. inversion_clear B. inversion_clear H. constructor; [|apply IH; assumption].
  rewrite serialize_core. apply no_cr_app; [assumption|]. destruct H0 as [j ->]. apply data_no_cr, indent_data.
Qed.
Lemma vacant_blank w : Forall data_char w -> vacant (Some w) = true -> xblanks w.
Proof.
  intros F V. cbn [vacant] in V. unfold py_strip in V. destruct (rev (skip_space (rev (skip_space w)))) eqn:E; [|discriminate V]. clear V.
  apply (f_equal (@rev ascii)) in E. rewrite rev_involutive in E. cbn [rev] in E.
  assert (B : forall u, skip_space u = [] -> Forall (fun c => is_space c = true) u).
  { intros u. unfold skip_space. destruct (span is_space u) as [a b] eqn:S. destruct (span_some _ _ _ _ S) as (-> & A & _). cbn [snd]. intros ->. rewrite app_nil_r. exact A. }
  apply B in E. assert (S : Forall (fun c => is_space c = true) (skip_space w)) by (rewrite <- (rev_involutive (skip_space w)); apply Forall_rev, E).
  assert (W : Forall (fun c => is_space c = true) w).
  { unfold skip_space in S. destruct (span is_space w) as [a b] eqn:Q. destruct (span_some _ _ _ _ Q) as (-> & A & _). apply Forall_app. split; [exact A|exact S]. }
  apply Forall_forall. intros c C. rewrite Forall_forall in F, W. specialize (F c C). specialize (W c C). destruct F as [X _]. unfold is_space in W. rewrite orb_true_iff, andb_true_iff, Z.eqb_eq, !Z.leb_le in W.
  unfold xblank. unfold xchar in X. cbn [In] in *. intuition lia.
Qed.
Lemma text_pieces (w : text) ps : (forall c r, ps <> inl c :: r) -> text_before (map inl w ++ ps) = match w with [] => None | _ => Some w end /\ kids_of (map inl w ++ ps) = kids_of ps.
Proof.
  intros H. assert (X : holds (map inl w ++ ps) (match w with [] => None | _ => Some w end) (kids_of ps)) by (exists w, ps; rewrite kids_map; auto).
  apply holds_iff in X as [-> ->]. auto.
Qed.
Theorem core_written : forall x, writable x -> forall level, element_text (core (pretty level (of_xml x))) (spaced level x) /\ no_cr (core (pretty level (of_xml x))).
Proof.
  induction x as [n a txt kids IH] using xml_ind2. intros W level. inversion W as [n' a' txt' kids' NM AT ND TX WK]; subst.
  destruct kids as [|k0 ks].
  - cbn [of_xml map pretty]. unfold core. cbn [set_tail serialize map spaced].
    destruct txt as [[|c w]|].
    + cbn [data_text]. rewrite app_nil_r. split; [apply (el_empty n (flat_map attr_text a) a (lit " ")); try assumption; [apply attrs_written, AT|constructor; [cbn; tauto|constructor]]|].
      repeat apply no_cr_app; try (apply no_cr_lit; reflexivity); [apply (name_no_cr n NM)|apply attrs_no_cr, AT].
    + cbn [flat_map app data_text]. rewrite app_nil_r. split.
      * pose proof (content_data (c :: w) [] [] (data_xchar _ TX) (or_introl eq_refl) con_end) as C. rewrite !app_nil_r in C.
        apply (el_full n (flat_map attr_text a) a [] (flat_map escape_data (c :: w)) (map inl (c :: w)) (Some (c :: w)) [] []); [exact NM|apply attrs_written, AT|exact ND|constructor|exact C| |constructor].
        exists (c :: w), []. split; [|split; [discriminate|split; reflexivity]]. rewrite app_nil_r. reflexivity.
      * change (escape_data c ++ flat_map escape_data w) with (flat_map escape_data (c :: w)). pose proof (data_no_cr _ TX) as DN. set (dt := flat_map escape_data (c :: w)) in *. clearbody dt.
        repeat apply no_cr_app; try (apply no_cr_lit; reflexivity); [apply (name_no_cr n NM)|apply attrs_no_cr, AT|exact DN|apply (name_no_cr n NM)].
    + cbn [data_text]. rewrite app_nil_r. split; [apply (el_empty n (flat_map attr_text a) a (lit " ")); try assumption; [apply attrs_written, AT|constructor; [cbn; tauto|constructor]]|].
      repeat apply no_cr_app; try (apply no_cr_lit; reflexivity); [apply (name_no_cr n NM)|apply attrs_no_cr, AT].
  - set (kids := k0 :: ks) in *. assert (KN : kids <> []) by discriminate.
    assert (P : core (pretty level (of_xml (Elem n a txt kids))) = lit "<" ++ name_text n ++ flat_map attr_text a ++ lit ">" ++ data_text (if vacant txt then Some (indent (S level)) else txt) ++
                 flat_map serialize (last_tail (indent level) (map (pretty (S level)) (map of_xml kids))) ++ lit "</" ++ name_text n ++ lit ">").
    { unfold kids. cbn [of_xml map pretty]. unfold core. cbn [set_tail serialize]. fold (indent level). replace (indent level ++ [tab]) with (indent (S level)) by (symmetry; apply (indent_step level)).
      set (L := last_tail (indent level) _). assert (LN : L <> []) by (subst L; cbn [last_tail]; destruct (map (pretty (S level)) (map of_xml ks)); discriminate). clearbody L.
      destruct L as [|l0 L]; [contradiction LN; reflexivity|]. destruct (vacant txt); cbn [data_text]; [rewrite app_nil_r; reflexivity|]. destruct txt as [[|c w]|]; cbn [data_text]; rewrite app_nil_r; reflexivity. }
    rewrite P. clear P. set (L := last_tail (indent level) (map (pretty (S level)) (map of_xml kids))).
    assert (TB : tails_blank L). { unfold L. apply last_tail_blank. unfold tails_blank. rewrite map_map. apply Forall_forall. intros y Y. apply in_map_iff in Y as (k & <- & _). exists (S level). apply pretty_tail. }
    assert (CO : map core L = map (fun k => core (pretty (S level) (of_xml k))) kids) by (unfold L; rewrite last_tail_core, !map_map; reflexivity).
    assert (FE : Forall2 (fun c x => element_text c x) (map core L) (map (spaced (S level)) kids)).
    { rewrite CO. clear CO TB. clearbody kids. clear KN L. induction kids as [|k l IHl]; [constructor|]. inversion IH as [|? ? IH1 IH2]; subst. inversion WK as [|? ? W1 W2]; subst. cbn [map]. constructor; [apply IH1, W1|]. apply IHl; try assumption. constructor; assumption. }
    assert (FC : Forall no_cr (map core L)).
    { rewrite CO. apply Forall_forall. intros c C. apply in_map_iff in C as (k & <- & K). rewrite Forall_forall in IH, WK. apply (IH k K (WK k K)). }
    destruct (kids_written L _ TB FE) as (ps & CT & KO & NI & SH).
    assert (SP : spaced level (Elem n a txt kids) = Elem n a (if vacant txt then Some (indent (S level)) else txt) (map (spaced (S level)) kids)).
    { unfold kids. cbn [spaced]. rewrite indent_step. reflexivity. }
    rewrite SP. clear SP. clearbody kids.
    assert (D : exists w, (if vacant txt then Some (indent (S level)) else txt) = Some w /\ w <> [] /\ Forall data_char w).
    { destruct (vacant txt) eqn:V; [exists (indent (S level)); split; [reflexivity|]; split; [discriminate|apply indent_data]|]. destruct txt as [w|]; [|discriminate V]. exists w. split; [reflexivity|]. split; [intros ->; discriminate V|exact TX]. }
    destruct D as (w & -> & WN & DW). split.
    + cbn [data_text]. rewrite (app_assoc (flat_map escape_data w)).
      apply (el_full n (flat_map attr_text a) a [] (flat_map escape_data w ++ flat_map serialize L) (map inl w ++ ps) (Some w) (map (spaced (S level)) kids) []); [exact NM|apply attrs_written, AT|exact ND|constructor|apply content_data; [apply data_xchar, DW|exact SH|exact CT]| |constructor].
      apply holds_iff. destruct (text_pieces w ps NI) as [T1 T2]. rewrite T1, T2, KO. split; [destruct w; [contradiction WN; reflexivity|reflexivity]|reflexivity].
    + cbn [data_text]. repeat apply no_cr_app; try (apply no_cr_lit; reflexivity); [apply (name_no_cr n NM)|apply attrs_no_cr, AT|apply data_no_cr, DW|apply kids_no_cr; assumption|apply (name_no_cr n NM)].
Qed.
