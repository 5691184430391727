(** Proofs for C87: attributes, comments, elements and documents. *)
From Coq Require Import Ascii String List ZArith Lia Bool.
From Verif Require Import Base Lists M_Text M_Loaders M_Xml S_Xml L_Xml.
Import ListNotations.
Local Open Scope Z_scope.

Lemma quote_iff : forall q, is_quote q = true <-> q = """"%char \/ q = "'"%char.
Proof. intros q. unfold is_quote. rewrite orb_true_iff, !Ascii.eqb_eq. reflexivity. Qed.
Lemma eqb_no : forall c d, c <> d -> Ascii.eqb c d = false.
Proof. intros c d H. apply Ascii.eqb_neq, H. Qed.

(** Values *)
Lemma avalue_some : forall f q t v r, avalue f q t = Some (v, r) -> exists s, t = s ++ [q] ++ r /\ value_text q s v.
Proof.
  induction f as [|f IH]; intros q t v r H; [discriminate H|]. destruct t as [|c t]; [discriminate H|]. cbn [avalue] in H.
  destruct (Ascii.eqb_spec c q) as [->|NQ]; [injection H as <- <-; exists []; split; [reflexivity|constructor]|].
  destruct (Ascii.eqb_spec c "&") as [->|NA].
  - destruct (reference t) as [[d r']|] eqn:R; [|discriminate H]. destruct (avalue f q r') as [[w r2]|] eqn:A; [|discriminate H]. injection H as <- <-.
    destruct (IH _ _ _ _ A) as (s & -> & V). destruct (reference_some _ _ _ R) as (s0 & E & RT). exists (s0 ++ s). split; [|apply val_ref; assumption]. rewrite <- app_assoc. exact E.
  - destruct (Ascii.eqb_spec c "<") as [->|NL]; [discriminate H|]. cbn [orb] in H. destruct (xlegal c) eqn:X; [|discriminate H]. cbn [negb] in H.
    destruct (avalue f q t) as [[w r2]|] eqn:A; [|discriminate H]. injection H as <- <-. destruct (IH _ _ _ _ A) as (s & -> & V). exists (c :: s). split; [reflexivity|].
    apply val_char; try assumption; [apply xlegal_iff, X|]. destruct (xspace c) eqn:S; [left; split; [apply xspace_iff, S|reflexivity]|right; split; [apply xspace_no, S|reflexivity]].
Qed.
Lemma avalue_app : forall q s v, q = """"%char \/ q = "'"%char -> value_text q s v -> forall f r, (length s < f)%nat -> avalue f q (s ++ [q] ++ r) = Some (v, r).
Proof.
  intros q s v Q. induction 1 as [|c d t v X NQ NA NL FL _ IH|s c t v RT _ IH]; intros f r L; (destruct f as [|f]; [cbn in L; lia|]).
  - cbn [app avalue]. rewrite Ascii.eqb_refl. reflexivity.
  - cbn [length] in L. cbn [app avalue]. rewrite !eqb_no by assumption. apply xlegal_iff in X. rewrite X. cbn [negb orb]. cbn [app] in IH. rewrite IH by lia.
    destruct FL as [[B ->]|[B ->]]; [apply xspace_iff in B|apply xspace_no in B]; rewrite B; reflexivity.
  - destruct (reference_app s c RT) as (s' & -> & R). rewrite <- app_assoc. cbn [app avalue]. rewrite eqb_no by (destruct Q as [-> | ->]; discriminate). rewrite Ascii.eqb_refl.
    rewrite R. rewrite app_length in L. cbn [length] in L. cbn [app] in IH. rewrite IH by lia. reflexivity.
Qed.

(** Attributes *)
Definition tag_end (r : text) : Prop := exists c u, r = c :: u /\ (c = ">"%char \/ c = "/"%char).
Lemma attributes_some : forall f t l r, attributes f t = Some (l, r) -> exists s w, t = s ++ w ++ r /\ attrs_text s l /\ xblanks w /\ tag_end r.
Proof.
  induction f as [|f IH]; intros t l r H; [discriminate H|]. cbn [attributes] in H. destruct (span xspace t) as [w u] eqn:E. destruct (span_some _ _ _ _ E) as (-> & F & _). apply blanks_iff in F.
  destruct (match u with c :: _ => Ascii.eqb c ">" || Ascii.eqb c "/" | [] => false end) eqn:T.
  - injection H as <- <-. exists [], w. split; [reflexivity|]. split; [constructor|]. split; [exact F|]. destruct u as [|c u]; [discriminate T|]. exists c, u. split; [reflexivity|].
    apply orb_true_iff in T as [T|T]; apply Ascii.eqb_eq in T; auto.
  - destruct w as [|b w]; [discriminate H|]. cbn [is_nil] in H. destruct (xname u) as [[n r1]|] eqn:N; [|discriminate H]. destruct (xname_some _ _ _ N) as (-> & NM & _).
    destruct (eat (lit "=") (skip_xspace r1)) as [r2|] eqn:Q; [|discriminate H]. apply eat_some in Q. destruct (skip_xspace_some r1) as (w1 & E1 & B1 & _). rewrite Q in E1. subst r1.
    destruct (skip_xspace_some r2) as (w2 & E2 & B2 & _). destruct (skip_xspace r2) as [|q r3]; [discriminate H|]. destruct (is_quote q) eqn:IQ; [|discriminate H]. subst r2.
    destruct (avalue (S (length r3)) q r3) as [[v r4]|] eqn:A; [|discriminate H]. destruct (attributes f r4) as [[l' r5]|] eqn:L; [|discriminate H]. injection H as <- <-.
    destruct (avalue_some _ _ _ _ _ A) as (s & -> & V). destruct (IH _ _ _ L) as (s' & w' & -> & AT & B & TE).
    exists ((b :: w) ++ lit (string_of_list_ascii n) ++ w1 ++ lit "=" ++ w2 ++ [q] ++ s ++ [q] ++ s'), w'. split.
    + rewrite lit_string. rewrite <- !app_assoc. reflexivity.
    + split; [|split; [exact B|exact TE]]. apply attrs_more; try assumption; [discriminate|apply quote_iff, IQ].
Qed.
Lemma blank_head_not_inner : forall w r, xblanks w -> (forall c u, r = c :: u -> ~ inner_char c) -> forall c u, w ++ r = c :: u -> ~ inner_char c.
Proof. intros [|b w] r B H c u E; [apply (H c u E)|]. injection E as <- _. inversion_clear B. apply blank_not_inner. assumption. Qed.
Lemma start_not_blank : forall c, start_char c -> ~ xblank c.
Proof. intros c S B. exact (blank_not_inner c B (start_inner c S)). Qed.
Lemma tag_end_not_blank : forall r, tag_end r -> forall c u, r = c :: u -> ~ xblank c.
Proof. intros r (c & u & -> & H) d v [= <- <-]. apply xspace_no. destruct H as [-> | ->]; reflexivity. Qed.
Lemma attributes_app : forall s l, attrs_text s l -> forall w r f, xblanks w -> tag_end r -> (length s < f)%nat -> attributes f (s ++ w ++ r) = Some (l, r).
Proof.
  induction 1 as [|w0 n w1 w2 q s v t l B0 NE NM B1 B2 Q V _ IH]; intros w r f B TE L; (destruct f as [|f]; [cbn in L; lia|]).
  - cbn [app attributes]. rewrite span_app; [|apply blanks_iff, B|intros c u E; apply xspace_no, (tag_end_not_blank r TE c u E)].
    destruct TE as (c & u & -> & [-> | ->]); reflexivity.
  - cbn [attributes]. rewrite <- !app_assoc. destruct (name_first n NM) as (c & u & EN & SC).
    rewrite span_app; [|apply blanks_iff, B0|intros d x E; apply xspace_no; rewrite EN in E; injection E as <- _; apply start_not_blank, SC].
    assert (T : match lit n ++ w1 ++ lit "=" ++ w2 ++ [q] ++ s ++ [q] ++ t ++ w ++ r with c :: _ => Ascii.eqb c ">" || Ascii.eqb c "/" | [] => false end = false).
    { rewrite EN. cbn [app]. rewrite !eqb_no; [reflexivity| |]; intros ->; (eapply not_inner; [|apply start_inner, SC]); cbn; tauto. }
    rewrite T. destruct w0 as [|b0 w0]; [contradiction NE; reflexivity|]. cbn [is_nil].
    rewrite xname_app; [|exact NM|].
    2:{ apply blank_head_not_inner; [exact B1|]. intros d x E. injection E as <- _. apply not_inner. cbn; tauto. }
    rewrite skip_xspace_app; [|exact B1|intros d x E; injection E as <- _; apply xspace_no; reflexivity]. rewrite eat_app.
    assert (QB : forall d x, [q] ++ s ++ [q] ++ t ++ w ++ r = d :: x -> ~ xblank d) by (intros d x E; injection E as <- _; apply xspace_no; destruct Q as [-> | ->]; reflexivity).
    rewrite skip_xspace_app; [|exact B2|exact QB]. cbn [app]. replace (is_quote q) with true by (symmetry; apply quote_iff, Q).
    pose proof (avalue_app q s v Q V) as AV. cbn [app] in AV. rewrite AV by (rewrite !app_length; cbn [length]; lia).
    rewrite IH; [rewrite string_lit; reflexivity|exact B|exact TE|]. cbn [app length] in L. repeat (rewrite app_length in L; cbn [length] in L). lia.
Qed.

(** Comments and the declaration *)
Lemma comment_some : forall t r, comment t = Some r -> exists b, t = b ++ lit "-->" ++ r /\ Forall xchar b /\ forall u v, b ++ lit "-" <> u ++ lit "--" ++ v.
Proof.
  induction t as [|c t IH]; intros r H; [discriminate H|]. unfold comment in H; fold comment in H. destruct (eat (lit "--") (c :: t)) as [r'|] eqn:E.
  - apply eat_some in E. apply eat_some in H. subst r'. exists []. split; [exact E|]. split; [constructor|]. intros u v X. apply (f_equal (@length ascii)) in X. rewrite !app_length in X. cbn in X. lia.
  - destruct (xlegal c) eqn:X; [|discriminate H]. destruct (IH r H) as (b & -> & F & N). exists (c :: b). split; [reflexivity|]. split; [constructor; [apply xlegal_iff, X|exact F]|].
    intros [|d u] v Q.
    + apply (eat_not (lit "--") (c :: b ++ lit "-->" ++ r) (v ++ lit "->" ++ r) E). change (c :: b ++ lit "-->" ++ r) with ((c :: b) ++ lit "-" ++ lit "->" ++ r). rewrite (app_assoc (c :: b)), Q, <- app_assoc. reflexivity.
    + injection Q as _ Q. exact (N u v Q).
Qed.
Lemma comment_app : forall b r, Forall xchar b -> (forall u v, b ++ lit "-" <> u ++ lit "--" ++ v) -> comment (b ++ lit "-->" ++ r) = Some r.
Proof.
  induction b as [|c b IH]; intros r F N; [reflexivity|]. inversion_clear F. cbn [app]. unfold comment; fold comment. rewrite eat_none.
  - apply xlegal_iff in H. rewrite H. apply IH; [exact H0|]. intros u v Q. apply (N (c :: u) v). cbn [app]. f_equal. exact Q.
  - intros z E. injection E as -> E. destruct b as [|d b].
    + apply (N [] []). reflexivity.
    + injection E as -> _. apply (N [] (b ++ lit "-")). reflexivity.
Qed.
Lemma declaration_end_some : forall t r, declaration_end t = Some r -> exists b, t = b ++ lit "?>" ++ r /\ Forall xchar b /\ forall u v, b ++ lit "?" <> u ++ lit "?>" ++ v.
Proof.
  induction t as [|c t IH]; intros r H; [discriminate H|]. unfold declaration_end in H; fold declaration_end in H. destruct (eat (lit "?>") (c :: t)) as [r'|] eqn:E.
  - apply eat_some in E. injection H as <-. exists []. split; [exact E|]. split; [constructor|]. intros u v X. apply (f_equal (@length ascii)) in X. rewrite !app_length in X. cbn in X. lia.
  - destruct (xlegal c) eqn:X; [|discriminate H]. destruct (IH r H) as (b & -> & F & N). exists (c :: b). split; [reflexivity|]. split; [constructor; [apply xlegal_iff, X|exact F]|].
    intros [|d u] v Q.
    + apply (eat_not (lit "?>") (c :: b ++ lit "?>" ++ r) (v ++ lit ">" ++ r) E). change (c :: b ++ lit "?>" ++ r) with ((c :: b) ++ lit "?" ++ lit ">" ++ r). rewrite (app_assoc (c :: b)), Q, <- app_assoc. reflexivity.
    + injection Q as _ Q. exact (N u v Q).
Qed.
Lemma declaration_end_app : forall b r, Forall xchar b -> (forall u v, b ++ lit "?" <> u ++ lit "?>" ++ v) -> declaration_end (b ++ lit "?>" ++ r) = Some r.
Proof.
  induction b as [|c b IH]; intros r F N; [reflexivity|]. inversion_clear F. cbn [app]. unfold declaration_end; fold declaration_end. rewrite eat_none.
  - apply xlegal_iff in H. rewrite H. apply IH; [exact H0|]. intros u v Q. apply (N (c :: u) v). cbn [app]. f_equal. exact Q.
  - intros z E. injection E as -> E. destruct b as [|d b].
    + discriminate E.
    + injection E as -> _. apply (N [] (b ++ lit "?")). reflexivity.
Qed.

(** Pieces *)
Lemma distinct_iff : forall l, distinct l = true <-> NoDup l.
Proof.
  induction l as [|x l IH]; [split; [constructor|reflexivity]|]. cbn [distinct]. rewrite andb_true_iff, negb_true_iff. split.
  - intros [H D]. constructor; [|apply IH, D]. intros I. assert (T : existsb (String.eqb x) l = true) by (apply existsb_exists; exists x; split; [exact I|apply String.eqb_refl]). congruence.
  - intros H. inversion_clear H. split; [|apply IH; assumption]. destruct (existsb (String.eqb x) l) eqn:T; [|reflexivity]. apply existsb_exists in T as (y & I & E). apply String.eqb_eq in E. subst y. contradiction.
Qed.
Lemma kids_map : forall l, kids_of l = flat_map (fun p => match p with inl _ => [] | inr x => [x] end) l.
Proof. induction l as [|[c|x] l IH]; [reflexivity|exact IH|]. cbn [kids_of flat_map app]. f_equal. exact IH. Qed.
Lemma holds_iff : forall l txt kids, holds l txt kids <-> txt = text_before l /\ kids = kids_of l.
Proof.
  intros l txt kids. split.
  - intros (b & rest & -> & H & -> & ->).
    assert (D : data_of (map inl b ++ rest) = b) by (induction b as [|c b IH]; [destruct rest as [|[c|x] rest]; [reflexivity|contradiction (H c rest); reflexivity|reflexivity]|cbn [map app data_of]; f_equal; exact IH]).
    split; [unfold text_before; rewrite D; destruct b; reflexivity|]. rewrite <- kids_map. clear D. induction b as [|c b IH]; [reflexivity|exact IH].
  - intros [-> ->]. assert (X : exists rest, l = map inl (data_of l) ++ rest /\ (forall c r, rest <> inl c :: r) /\ kids_of l = kids_of rest).
    { induction l as [|[c|x] l (rest & E & H & K)]; [exists []; repeat split; discriminate| |].
      - exists rest. cbn [data_of map app kids_of]. rewrite <- E. repeat split; assumption.
      - exists (inr x :: l). repeat split; discriminate. }
    destruct X as (rest & E & H & K). exists (data_of l), rest. split; [exact E|]. split; [exact H|]. split; [unfold text_before; destruct (data_of l); reflexivity|]. rewrite K. apply kids_map.
Qed.

(** Elements *)
Definition content_sound (con : text -> option (list piece * text)) : Prop :=
  forall t l r, con t = Some (l, r) -> exists s, t = s ++ r /\ content_text s l.
Lemma element_some con : content_sound con -> forall t x r, element_with con t = Some (x, r) -> exists s, lit "<" ++ t = s ++ r /\ element_text s x.
Proof.
  intros C t x r H. unfold element_with in H. destruct (xname t) as [[n r1]|] eqn:N; [|discriminate H]. destruct (xname_some _ _ _ N) as (-> & NM & _).
  destruct (attributes (S (length r1)) r1) as [[al r2]|] eqn:A; [|discriminate H]. destruct (attributes_some _ _ _ _ A) as (s & w & -> & AT & B & TE).
  destruct (distinct (map fst al)) eqn:D; [|discriminate H]. cbn [negb] in H. apply distinct_iff in D.
  destruct (eat (lit "/>") r2) as [r3|] eqn:E1.
  - apply eat_some in E1. subst r2. injection H as <- <-. exists (lit "<" ++ lit (string_of_list_ascii n) ++ s ++ w ++ lit "/>"). split.
    + rewrite lit_string, <- !app_assoc. reflexivity.
    + apply el_empty; assumption.
  - destruct (eat (lit ">") r2) as [r3|] eqn:E2; [|discriminate H]. apply eat_some in E2. subst r2. destruct (con r3) as [[l r4]|] eqn:K; [|discriminate H].
    destruct (C _ _ _ K) as (c & -> & CT). destruct (eat (lit "</" ++ n) r4) as [r5|] eqn:E3; [|discriminate H]. apply eat_some in E3. subst r4.
    destruct (skip_xspace_some r5) as (w' & E5 & B5 & _). destruct (eat (lit ">") (skip_xspace r5)) as [r6|] eqn:E6; [|discriminate H]. apply eat_some in E6. rewrite E6 in E5. subst r5.
    injection H as <- <-. exists (lit "<" ++ lit (string_of_list_ascii n) ++ s ++ w ++ lit ">" ++ c ++ lit "</" ++ lit (string_of_list_ascii n) ++ w' ++ lit ">"). split.
    + rewrite lit_string, <- !app_assoc. reflexivity.
    + eapply el_full; try eassumption. apply holds_iff. split; reflexivity.
Qed.
Lemma content_some : forall f, content_sound (content f).
Proof.
  induction f as [|f IH]; intros t l r H; [discriminate H|]. cbn [content] in H.
  destruct (eat (lit "</") t) as [z|] eqn:E1; [injection H as <- <-; exists []; split; [reflexivity|constructor]|].
  destruct (eat (lit "<!--") t) as [z|] eqn:E2.
  { apply eat_some in E2. subst t. destruct (comment z) as [r'|] eqn:K; [|discriminate H]. destruct (comment_some _ _ K) as (b & -> & F & N). destruct (IH _ _ _ H) as (s & -> & CT).
    exists ((lit "<!--" ++ b ++ lit "-->") ++ s). split; [rewrite <- !app_assoc; reflexivity|]. apply con_comment; [|exact CT]. exists b. auto. }
  destruct (eat (lit "<") t) as [z|] eqn:E3.
  { apply eat_some in E3. subst t. destruct (element_with (content f) z) as [[x r']|] eqn:X; [|discriminate H]. destruct (element_some _ IH _ _ _ X) as (s & E & ET).
    destruct (content f r') as [[l' r2]|] eqn:K; [|discriminate H]. injection H as <- <-. destruct (IH _ _ _ K) as (s' & -> & CT). exists (s ++ s'). split; [rewrite <- app_assoc; exact E|]. apply con_kid; assumption. }
  destruct (eat (lit "&") t) as [z|] eqn:E4.
  { apply eat_some in E4. subst t. destruct (reference z) as [[d r']|] eqn:R; [|discriminate H]. destruct (reference_some _ _ _ R) as (s & E & RT).
    destruct (content f r') as [[l' r2]|] eqn:K; [|discriminate H]. injection H as <- <-. destruct (IH _ _ _ K) as (s' & -> & CT). exists (s ++ s'). split; [rewrite <- app_assoc; exact E|]. apply con_ref; assumption. }
  destruct t as [|c t]; [discriminate H|]. destruct (eat (lit "]]>") (c :: t)) as [z|] eqn:E5; [discriminate H|]. destruct (xlegal c) eqn:X; [|discriminate H].
  destruct (content f t) as [[l' r2]|] eqn:K; [|discriminate H]. injection H as <- <-. destruct (IH _ _ _ K) as (s & -> & CT). exists (c :: s). split; [reflexivity|].
  apply con_char; [apply xlegal_iff, X| | | |exact CT].
  - intros ->. discriminate E4.
  - intros ->. discriminate E3.
  - intros z Q. apply (eat_not _ _ (z ++ r2) E5). rewrite (app_comm_cons s r2 c), Q, <- app_assoc. reflexivity.
Qed.

Scheme content_mut := Induction for content_text Sort Prop with element_mut := Induction for element_text Sort Prop.
Combined Scheme xml_mut from content_mut, element_mut.
Lemma element_begin : forall s x, element_text s x -> exists c u, s = lit "<" ++ c :: u /\ start_char c.
Proof. intros s x [n a al w NM _ _ _|n a al w c l txt kids w' NM _ _ _ _ _ _]; destruct (name_first n NM) as (d & u & E & SC); rewrite E; eexists d, _; split; try exact SC; reflexivity. Qed.
Definition content_complete (s : text) (l : list piece) : Prop :=
  forall f r, (length s < f)%nat -> content f (s ++ lit "</" ++ r) = Some (l, lit "</" ++ r).
Definition element_complete (s : text) (x : xml) : Prop :=
  forall f r, (length s <= S f)%nat -> exists s', s = lit "<" ++ s' /\ element_with (content f) (s' ++ r) = Some (x, r).
Lemma attrs_begin : forall a al w r, attrs_text a al -> xblanks w -> tag_end r -> forall c u, a ++ w ++ r = c :: u -> ~ inner_char c.
Proof.
  intros a al w r H B TE. destruct H as [|w0 n w1 w2 q s v t l B0 NE NM B1 B2 Q V T].
  - cbn [app]. apply blank_head_not_inner; [exact B|]. destruct TE as (d & u & -> & D). intros c z [= <- _]. apply not_inner. destruct D as [-> | ->]; cbn; tauto.
  - destruct w0 as [|b w0]; [contradiction NE; reflexivity|]. intros c u E. injection E as <- _. inversion_clear B0. apply blank_not_inner. assumption.
Qed.
Lemma xml_complete : (forall s l, content_text s l -> content_complete s l) /\ (forall s x, element_text s x -> element_complete s x).
Proof.
  apply xml_mut.
  - intros f r L. destruct f as [|f]; [cbn in L; lia|]. cbn [app content]. rewrite (eat_app (lit "</") r). reflexivity.
  - intros c t l X NA NL NB CT IH f r L. cbn [length] in L. destruct f as [|f]; [lia|]. cbn [app content].
    rewrite !(eat_none (lit "</")), !(eat_none (lit "<!--")), !(eat_none (lit "<")), !(eat_none (lit "&")) by (intros z E; injection E as E _; congruence).
    rewrite eat_none.
    + apply xlegal_iff in X. rewrite X. rewrite IH by lia. reflexivity.
    + intros z E. destruct t as [|d [|e t]]; [discriminate E|discriminate E|]. injection E as -> -> -> _. apply (NB t). reflexivity.
  - intros s c t l RT CT IH f r L. rewrite app_length in L. destruct (reference_app s c RT) as (s' & -> & R). cbn [length] in L. destruct f as [|f]; [lia|]. rewrite <- app_assoc. cbn [app content].
    rewrite (eat_none (lit "</")), (eat_none (lit "<!--")), (eat_none (lit "<")) by (intros z E; discriminate E).
    change (eat (lit "&") ("&"%char :: s' ++ t ++ lit "</" ++ r)) with (eat (lit "&") (lit "&" ++ s' ++ t ++ lit "</" ++ r)). rewrite eat_app. rewrite R, IH by lia. reflexivity.
  - intros s t l (b & -> & F & N) CT IH f r L. rewrite !app_length in L. cbn [lit list_ascii_of_string length] in L. destruct f as [|f]; [lia|]. rewrite <- !app_assoc. cbn [content].
    rewrite (eat_none (lit "</")) by (intros z E; discriminate E). rewrite eat_app, comment_app by assumption. apply IH. lia.
  - intros s x t l ET IHE CT IH f r L. rewrite app_length in L. assert (LS : (0 < length s)%nat) by (destruct (element_begin _ _ ET) as (c & u & -> & _); cbn; lia).
    destruct f as [|f]; [lia|]. destruct (IHE f (t ++ lit "</" ++ r)) as (s' & -> & E); [lia|]. destruct (element_begin _ _ ET) as (c & u & Q & SC). apply app_inv_head in Q. subst s'. rewrite <- !app_assoc. cbn [content].
    rewrite (eat_none (lit "</")), (eat_none (lit "<!--")) by (intros z Z; injection Z as Z; eapply not_inner; [|apply start_inner; exact SC]; subst c; cbn; tauto).
    rewrite eat_app, E, IH; [reflexivity|]. cbn [lit list_ascii_of_string app length] in L. lia.
  - intros n a al w NM AT D B f r L. exists (lit n ++ a ++ w ++ lit "/>"). split; [reflexivity|]. unfold element_with. rewrite <- !app_assoc.
    assert (TE : tag_end (lit "/>" ++ r)) by (eexists _, _; split; [reflexivity|tauto]).
    rewrite xname_app; [|exact NM|apply (attrs_begin a al w _ AT B TE)]. rewrite (attributes_app a al AT w _ _ B TE) by (rewrite !app_length; cbn; lia).
    apply distinct_iff in D. rewrite D. cbn [negb]. rewrite eat_app, string_lit. reflexivity.
  - intros n a al w c l txt kids w' NM AT D B CT IH H B' f r L. exists (lit n ++ a ++ w ++ lit ">" ++ c ++ lit "</" ++ lit n ++ w' ++ lit ">"). split; [reflexivity|]. unfold element_with. rewrite <- !app_assoc.
    assert (TE : tag_end (lit ">" ++ c ++ lit "</" ++ lit n ++ w' ++ lit ">" ++ r)) by (eexists _, _; split; [reflexivity|tauto]).
    rewrite xname_app; [|exact NM|apply (attrs_begin a al w _ AT B TE)]. rewrite (attributes_app a al AT w _ _ B TE) by (rewrite !app_length; cbn; lia).
    apply distinct_iff in D. rewrite D. cbn [negb]. rewrite (eat_none (lit "/>")) by (intros z E; discriminate E). rewrite eat_app.
    repeat (rewrite app_length in L; cbn [lit list_ascii_of_string length] in L). rewrite IH by lia.
    rewrite (app_assoc (lit "</") (lit n)), eat_app. rewrite skip_xspace_app; [|exact B'|intros d x E; injection E as <- _; apply xspace_no; reflexivity]. rewrite eat_app, string_lit.
    apply holds_iff in H as [-> ->]. reflexivity.
Qed.
Definition content_app s l H := proj1 xml_complete s l H.
Definition element_app s x H := proj2 xml_complete s x H.
