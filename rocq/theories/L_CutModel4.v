(** Proofs: XGBoost dumps that end anywhere (C97). *)
From Coq Require Import Ascii String List ZArith Lia Bool Permutation.
From Verif Require Import Base Lists Num M_Text M_Svmlight S_Svmlight L_Text L_Svmlight3 L_MetricEval M_Dataset M_Ensemble S_Ensemble L_Ensemble L_Ensemble2 M_Loaders M_TextLoaders S_Loaders L_Loaders L_QuickRank L_Dump L_Dump2 S_CutModel L_CutModel L_CutModel2 L_CutModel3.
Import ListNotations.
Local Open Scope Z_scope.

(** ** Matches need their characters *)
Lemma search_char {A} (m : text -> option A) c l : (forall l' x, m l' = Some x -> In c l') -> ~ In c l -> search m l = None.
Proof.
  intros H. induction l as [|d r IH]; intros N; cbn [search].
  - destruct (m []) eqn:E; auto. apply H in E. destruct E.
  - destruct (m (d :: r)) eqn:E; [apply H in E; contradiction|]. apply IH. intros I. apply N. right; auto.
Qed.
Lemma upto_last_in c l x : upto_last c l = Some x -> In c l.
Proof.
  revert x. induction l as [|a l IH]; intros x; cbn [upto_last]; [discriminate|]. destruct (upto_last c l) as [p|]; [intros _; right; eapply IH; reflexivity|].
  destruct (Ascii.eqb_spec a c); [intros _; left; auto|discriminate].
Qed.
Lemma before_in c d l : In d (before c l) -> In d l.
Proof.
  unfold before. pose proof (span_spec (fun x => negb (Ascii.eqb x c)) l) as K. destruct (span _ l) as [a b]. destruct K as (-> & _). intros H. apply in_or_app. left. exact H.
Qed.
Lemma strip_in p l r c : strip p l = Some r -> In c r -> In c l.
Proof. intros H I. apply strip_spec in H. subst l. apply in_or_app; auto. Qed.
Lemma node_at_bracket op l x : node_at op l = Some x -> In "]"%char l.
Proof.
  unfold node_at. destruct (span is_digit l) as [ds r] eqn:E. destruct (is_nil ds); [discriminate|].
  destruct (strip (lit ":[f") r) as [r1|] eqn:S; [|discriminate]. destruct (span is_digit r1) as [fs r2] eqn:E2. destruct (is_nil fs); [discriminate|].
  destruct (strip (lit op) r2) as [r3|] eqn:S3; [|discriminate]. destruct (upto_last "]" (before newline r3)) as [u|] eqn:U; [|discriminate]. intros _.
  eapply span_in; [exact E|]. eapply strip_in; [exact S|]. eapply span_in; [exact E2|]. eapply strip_in; [exact S3|]. eapply before_in, upto_last_in, U.
Qed.
Lemma leaf_at_more l x q : leaf_at l = Some x -> exists y, leaf_at (l ++ q) = Some y.
Proof.
  unfold leaf_at. destruct (span is_digit l) as [ds r] eqn:E. pose proof (span_spec is_digit l) as K. rewrite E in K. destruct K as (-> & K1 & K2).
  destruct (is_nil ds) eqn:ND; [discriminate|]. destruct (strip (lit ":leaf=") r) as [r1|] eqn:S; [|discriminate]. apply strip_spec in S. subst r.
  destruct (before newline r1) as [|c r2] eqn:B; [discriminate|]. intros _.
  assert (SP : span is_digit ((ds ++ lit ":leaf=" ++ r1) ++ q) = (ds, lit ":leaf=" ++ r1 ++ q)).
  { rewrite <- !app_assoc. clear -K1. induction ds as [|d ds IH]; [reflexivity|]. inversion K1; subst. cbn [app span]. rewrite H1, (IH H2). reflexivity. }
  rewrite SP, ND, strip_app. destruct r1 as [|c' r1]; [discriminate|]. unfold before in *. cbn [app span] in *. destruct (Ascii.eqb c' newline); [discriminate|]. cbn [negb].
  destruct (span _ (r1 ++ q)). cbn [fst]. eexists; reflexivity.
Qed.
Lemma search_more {A} (m : text -> option A) l q : (forall l x, m l = Some x -> exists y, m (l ++ q) = Some y) -> search m (l ++ q) = None -> search m l = None.
Proof.
  intros H. induction l as [|c l IH]; cbn [search app]; intros S.
  - destruct (m []) as [x|] eqn:E; [|reflexivity]. destruct (H _ _ E) as (y & Y). cbn [app] in Y. rewrite (search_hit m q y Y) in S. discriminate.
  - destruct (m (c :: l)) as [x|] eqn:E; [destruct (H _ _ E) as (y & Y); cbn [app] in Y; rewrite Y in S; discriminate|]. apply IH. destruct (m (c :: l ++ q)); [discriminate|exact S].
Qed.
Lemma booster_bracket l x : booster_match l = Some x -> In "]"%char l.
Proof.
  unfold booster_match. destruct (strip (lit "booster[") l) as [r|] eqn:S; [|discriminate]. destruct (span is_digit r) as [ds r1] eqn:E. destruct (is_nil ds); [discriminate|].
  destruct r1 as [|c r1]; [discriminate|]. intros H. eapply strip_in; [exact S|]. eapply span_in; [exact E|].
  destruct c as [[][][][][][][][]]; try discriminate. left. reflexivity.
Qed.
Lemma booster_more l x q : booster_match l = Some x -> exists y, booster_match (l ++ q) = Some y.
Proof.
  unfold booster_match. destruct (strip (lit "booster[") l) as [r|] eqn:S; [|discriminate]. apply strip_spec in S. subst l. rewrite <- app_assoc, strip_app.
  destruct (span is_digit r) as [ds r1] eqn:E. pose proof (span_spec is_digit r) as K. rewrite E in K. destruct K as (-> & K1 & K2).
  destruct (is_nil ds) eqn:ND; [discriminate|]. destruct r1 as [|c r1]; [discriminate|]. intros H.
  assert (SP : span is_digit ((ds ++ c :: r1) ++ q) = (ds, c :: r1 ++ q)).
  { rewrite <- app_assoc. cbn [app]. clear -K1 K2. induction ds as [|d ds IH]; [|inversion K1; subst; cbn [app span]; rewrite H1, (IH H2); reflexivity].
    cbn [app span]. cbn [stops] in K2. rewrite K2. reflexivity. }
  rewrite SP, ND. exists (digits_val ds). destruct c as [[][][][][][][][]]; try discriminate; reflexivity.
Qed.

(** ** Lines that end anywhere *)
Section Lines.
Variable op : string.
Hypothesis op_ok : op = "<"%string \/ op = "<="%string.
Variable leaf_tail : text -> Prop.
Hypothesis tail_prefix : forall a b, leaf_tail (a ++ b) -> leaf_tail a.
Definition unmatched (p : text) : Prop := booster_match p = None /\ search (node_at op) p = None /\ search leaf_at p = None.
Definition no_bracket (t : tree Z text) : Prop := Forall (fun x => ~ In "]"%char x) (thresholds t).
Definition reads_leaf (a p : text) : Prop :=
  word a /\ ~ In ","%char a /\ exists i, search (node_at op) p = None /\ search leaf_at p = Some (i, a) /\ booster_match p = None.
Lemma head_no c ind ti i : blanks ind -> nat_dec ti i -> ~ blank_char c -> ~ digit_char c -> ~ In c (ind ++ ti).
Proof. intros B (D & _) N1 N2 I. apply in_app_or in I. unfold blanks, digits in *. rewrite Forall_forall in *. destruct I as [I|I]; auto. Qed.
Lemma unmatched_head ind ti i p q : blanks ind -> nat_dec ti i -> ind ++ ti = p ++ q -> unmatched p.
Proof.
  intros B NI E. assert (NO : forall c, ~ blank_char c -> ~ digit_char c -> ~ In c p).
  { intros c N1 N2 I. apply (head_no c ind ti i B NI N1 N2). rewrite E. apply in_or_app; auto. }
  split; [|split].
  - destruct (booster_match p) eqn:K; [|reflexivity]. apply booster_bracket in K. exfalso. revert K. apply NO; cbn; intuition discriminate.
  - apply (search_char _ ":"); [apply node_at_colon|]. apply NO; cbn; intuition discriminate.
  - apply (search_char _ ":"); [apply leaf_at_colon|]. apply NO; cbn; intuition discriminate.
Qed.
Lemma booster_head ind ti i r : blanks ind -> nat_dec ti i -> booster_match (ind ++ ti ++ r) = None.
Proof.
  intros B NI. unfold booster_match. destruct ind as [|c ind].
  - destruct ti as [|c ti]; [destruct NI as (_ & N & _); congruence|]. cbn [app lit list_ascii_of_string strip].
    destruct NI as (D & _ & _). inversion D as [|? ? D1 D2]; subst.
    destruct (Ascii.eqb_spec "b" c); [|reflexivity]. subst c. cbn in D1. intuition discriminate.
  - cbn [app lit list_ascii_of_string strip]. inversion B as [|? ? B1 B2]; subst.
    destruct (Ascii.eqb_spec "b" c); [|reflexivity]. subst c. cbn in B1. intuition discriminate.
Qed.
Lemma unmatched_leaf ind ti i p q : blanks ind -> nat_dec ti i -> (ind ++ ti) ++ lit ":leaf=" = p ++ q -> unmatched p.
Proof.
  intros B NI E. apply app_eq_app in E as (c & [[E1 E2]|[E1 E2]]); [eapply unmatched_head; eauto|]. subst p. split; [|split].
  - rewrite <- app_assoc. eapply booster_head; eauto.
  - apply (search_char _ "]"); [apply node_at_bracket|]. intros I. apply in_app_or in I as [I|I]; [revert I; apply (head_no _ ind ti i B NI); cbn; intuition discriminate|].
    assert (I' : In "]"%char (lit ":leaf=")) by (rewrite E2; apply in_or_app; auto). cbn in I'. intuition discriminate.
  - rewrite <- app_assoc. rewrite search_skip; [|intros; apply (at_not_digit op); auto|apply blanks_not_digit; auto].
    assert (C : strip (lit ":leaf=") c = None /\ stops is_digit c \/ c = lit ":leaf=").
    { cbn [lit list_ascii_of_string] in E2. repeat (destruct c as [|? c]; [left; split; [reflexivity|exact I || reflexivity]|]; injection E2 as <- E2 || injection E2 as <-). destruct c; [right; reflexivity|discriminate]. }
    rewrite search_digits; [|apply NI|].
    + destruct C as [_|_].
      * assert (NC : forall d, In d c -> In d (lit ":leaf=")) by (intros d I; rewrite E2; apply in_or_app; auto).
        rewrite <- (app_nil_r c). rewrite search_skip; [reflexivity|intros; apply (at_not_digit op); auto|]. apply Forall_forall. intros d I. apply NC in I. cbn in I. intuition (subst; reflexivity).
      * assert (NC : forall d, In d c -> In d (lit ":leaf=")) by (intros d I; rewrite E2; apply in_or_app; auto).
        rewrite <- (app_nil_r c). rewrite search_skip; [reflexivity|intros; apply (at_not_digit op); auto|]. apply Forall_forall. intros d I. apply NC in I. cbn in I. intuition (subst; reflexivity).
    + intros ds D N. destruct C as [(C1 & C2)| ->]; [apply digits_at; auto|]. unfold leaf_at. rewrite digits_span by (auto; reflexivity). destruct ds; [congruence|]. reflexivity.
Qed.
Lemma unmatched_node ind ti i tf f x p q : blanks ind -> nat_dec ti i -> nat_dec tf f -> word x -> quiet_text x -> ~ In "]"%char x ->
  ind ++ ti ++ lit ":[f" ++ tf ++ lit op ++ x = p ++ q -> unmatched p.
Proof.
  intros B NI NF W QX NB E. destruct (node_line op op_ok ind ti i tf f x [] [] B NI NF W QX) as (_ & K2 & _); [split; intros []|intros []|left; reflexivity|].
  assert (NP : ~ In "]"%char (ind ++ ti ++ lit ":[f" ++ tf ++ lit op ++ x)).
  { rewrite app_assoc. intros I. apply in_app_or in I as [I|I]; [revert I; apply (head_no _ ind ti i B NI); cbn; intuition discriminate|].
    apply in_app_or in I as [I|I]; [cbn in I; intuition discriminate|]. apply in_app_or in I as [I|I]; [destruct NF as (D & _); unfold digits in D; rewrite Forall_forall in D; apply D in I; cbn in I; intuition discriminate|].
    apply in_app_or in I as [I|I]; [destruct op_ok as [-> | ->]; cbn in I; intuition discriminate|contradiction]. }
  assert (NP' : ~ In "]"%char p) by (intros I; apply NP; rewrite E; apply in_or_app; auto).
  split; [|split].
  - destruct (booster_match p) eqn:K; [apply booster_bracket in K; contradiction|reflexivity].
  - apply (search_char _ "]"); [apply node_at_bracket|exact NP'].
  - apply (search_more leaf_at p (q ++ lit "]" ++ [] ++ [])); [intros; eapply leaf_at_more; eauto|].
    rewrite app_assoc, <- E. rewrite <- !app_assoc. exact K2.
Qed.
(** The end of a line. *)
Lemma tail_cut tail nl c q : quiet_text tail -> eol nl -> tail ++ nl = c ++ q ->
  exists tail' nl', c = tail' ++ nl' /\ quiet_text tail' /\ eol nl' /\ exists d, tail = tail' ++ d.
Proof.
  intros [Q1 Q2] E H. apply app_eq_app in H as (d & [[-> H]|[-> H]]).
  - exists c, []. rewrite app_nil_r. split; [reflexivity|]. split; [split; intros I; [apply Q1|apply Q2]; apply in_or_app; auto|]. split; [left; reflexivity|]. exists d. reflexivity.
  - exists tail, d. split; [reflexivity|]. split; [split; assumption|]. split; [|exists []; rewrite app_nil_r; reflexivity].
    destruct E as [-> | ->]; [destruct d; [left; reflexivity|discriminate]|]. destruct d as [|y [|z d]]; [left; reflexivity| |discriminate]. injection H as <- _. right. reflexivity.
Qed.
Lemma upd_app {A} (a b : list A) n p : upd (a ++ b) n p = if (n <? length a)%nat then upd a n p ++ b else a ++ upd b (n - length a) p.
Proof.
  revert n. induction a as [|x a IH]; intros n; cbn [app length].
  - rewrite Nat.sub_0_r. reflexivity.
  - destruct n as [|n]; [reflexivity|]. cbn [upd]. rewrite IH. change (S n <? S (length a))%nat with (n <? length a)%nat. destruct (n <? length a)%nat; reflexivity.
Qed.
Lemma tree_cut t ls : dump_tree op leaf_tail t ls -> no_bracket t -> forall n (l p q : text), nth_error ls n = Some l -> l = p ++ q ->
  unmatched p \/ dump_tree op leaf_tail t (upd ls n p) \/
  exists v a b : text, leaf_in n t = Some v /\ v = a ++ b /\ a <> [] /\ dump_tree op leaf_tail (put_leaf n a t) (upd ls n p) /\ reads_leaf a p.
Proof.
  induction 1 as [i v ind ti tail nl B1 B2 NI W QV NC LT QL E|i f x l r ind ti tf tail nl ll lr B1 B2 NI NF W QT QL NB E Hl IHl Hr IHr]; intros BR n l0 p q Hn El.
  - destruct n as [|n]; [|destruct n; discriminate]. injection Hn as <-. cbn [upd leaf_in put_leaf Nat.eqb].
    assert (El' : ((ind ++ ti) ++ lit ":leaf=") ++ (v ++ tail ++ nl) = p ++ q) by (rewrite <- El, <- !app_assoc; reflexivity).
    apply app_eq_app in El' as (c & [[E1 _]|[E1 E2]]); [left; eapply unmatched_leaf; eauto|].
    destruct c as [|c0 c]; [left; rewrite app_nil_r in E1; eapply (unmatched_leaf ind ti i p []); [exact B1|exact NI|rewrite app_nil_r; auto]|]. right.
    apply app_eq_app in E2 as (d & [[E2 _]|[E2 E3]]).
    + right. exists v, (c0 :: c), d. split; [reflexivity|]. split; [exact E2|]. split; [discriminate|]. subst p. rewrite <- !app_assoc.
      assert (PE : ind ++ ti ++ lit ":leaf=" ++ c0 :: c = ind ++ ti ++ lit ":leaf=" ++ (c0 :: c) ++ [] ++ []) by (cbn [app]; rewrite app_nil_r; reflexivity).
      assert (W' : word (c0 :: c)) by (split; [discriminate|]; destruct W as [_ W]; rewrite E2 in W; apply Forall_app in W; apply W).
      assert (Q' : quiet_text (c0 :: c)) by (destruct QV as [V1 V2]; rewrite E2 in V1, V2; split; intros I; [apply V1|apply V2]; apply in_or_app; auto).
      assert (N' : ~ In ","%char (c0 :: c)) by (intros I; apply NC; rewrite E2; apply in_or_app; auto).
      split.
      * rewrite PE. constructor; auto; [apply (tail_prefix [] tail); exact LT|split; intros []|left; reflexivity].
      * split; [exact W'|]. split; [exact N'|]. exists i. destruct (L_Dump.leaf_line op op_ok ind ti i (c0 :: c) [] [] B1 NI W' Q') as (K1 & K2 & K3); [split; intros []|left; reflexivity|].
        rewrite (app_nil_r (c0 :: c)) in K2. rewrite PE. auto.
    + left. destruct (tail_cut tail nl d q QL E E3) as (tail' & nl' & -> & QL' & E' & (d' & D')). subst p. rewrite E2. rewrite <- !app_assoc. constructor; auto.
      subst tail. eapply tail_prefix; exact LT.
  - unfold no_bracket in BR. cbn [thresholds] in BR. inversion BR as [|? ? BX BR']; subst. apply Forall_app in BR' as [BL BR'].
    destruct n as [|n]; cbn [nth_error] in Hn.
    + injection Hn as El'. cbn [upd leaf_in put_leaf Nat.eqb].
      assert (E0 : (ind ++ ti ++ lit ":[f" ++ tf ++ lit op ++ x) ++ (lit "]" ++ tail ++ nl) = p ++ q) by (rewrite <- El', <- !app_assoc; reflexivity).
      apply app_eq_app in E0 as (c & [[E1 _]|[E1 E2]]); [left; apply (unmatched_node ind ti i tf f x p c); auto|].
      destruct c as [|c0 c]; [left; rewrite app_nil_r in E1; apply (unmatched_node ind ti i tf f x p []); auto; rewrite app_nil_r; auto|]. right. left.
      cbn [lit list_ascii_of_string app] in E2. injection E2 as <- E2. destruct (tail_cut tail nl c q QL E E2) as (tail' & nl' & -> & QL' & E' & (d' & D')). subst p. rewrite <- !app_assoc.
      constructor; auto. intros I. apply NB. subst tail. apply in_or_app; auto.
    + cbn [upd leaf_in put_leaf Nat.eqb]. replace (S n - 1)%nat with n by lia. rewrite upd_app. pose proof (lines_length _ _ _ _ Hl) as LL.
      destruct (Nat.ltb_spec n (length ll)) as [K|K].
      * rewrite nth_error_app1 in Hn by exact K. replace (S n <=? size l)%nat with true by (symmetry; apply Nat.leb_le; lia).
        destruct (IHl BL n _ p q Hn eq_refl) as [U|[D|(v & a & b & V1 & V2 & V3 & V4 & V5)]]; [left; exact U|right; left; constructor; auto|right; right].
        exists v, a, b. split; [exact V1|]. split; [exact V2|]. split; [exact V3|]. split; [|exact V5]. constructor; auto.
      * rewrite nth_error_app2 in Hn by exact K. replace (S n <=? size l)%nat with false by (symmetry; apply Nat.leb_gt; lia). replace (S n - S (size l))%nat with (n - length ll)%nat by lia.
        destruct (IHr BR' (n - length ll)%nat _ p q Hn eq_refl) as [U|[D|(v & a & b & V1 & V2 & V3 & V4 & V5)]]; [left; exact U|right; left; constructor; auto|right; right].
        exists v, a, b. split; [exact V1|]. split; [exact V2|]. split; [exact V3|]. split; [|exact V5]. constructor; auto.
Qed.
Lemma trees_cut k ts ls : dump_trees op leaf_tail k ts ls -> Forall no_bracket ts -> forall n (l p q : text), nth_error ls n = Some l -> l = p ++ q ->
  unmatched p \/ dump_trees op leaf_tail k ts (upd ls n p) \/
  exists v a b : text, leaf_line n ts = Some v /\ v = a ++ b /\ a <> [] /\ dump_trees op leaf_tail k (put_line n a ts) (upd ls n p) /\ reads_leaf a p.
Proof.
  induction 1 as [k|k tk rest t ll ts ls NK DT DS IH]; intros BR n l p q Hn El; [destruct n; discriminate|]. inversion BR as [|? ? BT BR']; subst.
  destruct n as [|n]; cbn [nth_error] in Hn.
  - injection Hn as El'. cbn [upd].
    assert (E0 : (lit "booster[" ++ tk) ++ (lit "]" ++ rest) = p ++ q) by (rewrite <- El', <- !app_assoc; reflexivity).
    assert (NO : forall c q', (lit "booster[" ++ tk) = p ++ q' -> c = ":"%char \/ c = "]"%char -> ~ In c p).
    { intros c q' E C I. assert (I' : In c (lit "booster[" ++ tk)) by (rewrite E; apply in_or_app; auto). apply in_app_or in I' as [I'|I'].
      - destruct C as [-> | ->]; cbn in I'; intuition discriminate.
      - destruct NK as (D & _). unfold digits in D. rewrite Forall_forall in D. apply D in I'. destruct C as [-> | ->]; cbn in I'; intuition discriminate. }
    assert (UM : forall q', (lit "booster[" ++ tk) = p ++ q' -> unmatched p).
    { intros q' E. split; [|split].
      - destruct (booster_match p) eqn:K; [|reflexivity]. apply booster_bracket in K. exfalso. revert K. eapply NO; eauto.
      - apply (search_char _ ":"); [apply node_at_colon|]. eapply NO; eauto.
      - apply (search_char _ ":"); [apply leaf_at_colon|]. eapply NO; eauto. }
    apply app_eq_app in E0 as (c & [[E1 _]|[E1 E2]]); [left; eapply UM; eauto|].
    destruct c as [|c0 c]; [left; rewrite app_nil_r in E1; apply (UM []); rewrite app_nil_r; auto|]. right. left.
    cbn [lit list_ascii_of_string app] in E2. injection E2 as <- E2. subst p. rewrite <- !app_assoc. change ("]"%char :: c) with (lit "]" ++ c). constructor; auto.
  - cbn [upd leaf_line put_line]. rewrite upd_app. pose proof (lines_length _ _ _ _ DT) as LL. rewrite <- LL.
    destruct (Nat.ltb_spec n (length ll)) as [K|K].
    + rewrite nth_error_app1 in Hn by exact K.
      destruct (tree_cut t ll DT BT n _ p q Hn eq_refl) as [U|[D|(v & a & b & V1 & V2 & V3 & V4 & V5)]]; [left; exact U|right; left; constructor; auto|right; right].
      exists v, a, b. split; [exact V1|]. split; [exact V2|]. split; [exact V3|]. split; [|exact V5]. constructor; auto.
    + rewrite nth_error_app2 in Hn by exact K.
      destruct (IH BR' (n - length ll)%nat _ p q Hn eq_refl) as [U|[D|(v & a & b & V1 & V2 & V3 & V4 & V5)]]; [left; exact U|right; left; constructor; auto|right; right].
      exists v, a, b. split; [exact V1|]. split; [exact V2|]. split; [exact V3|]. split; [|exact V5]. constructor; auto.
Qed.
End Lines.

(** ** Files *)
Lemma body_prefix a b : line_body (a ++ b) -> line_body a.
Proof. intros [B1 B2]. split; intros I; [apply B1|apply B2]; apply in_or_app; auto. Qed.
Lemma file_prefix f ls : file_text f ls -> forall g h, f = g ++ h ->
  let c := count_occ ascii_dec g newline in
  (exists n, (n = c \/ n = S c) /\ file_text g (firstn n ls)) \/
  (exists l p q, nth_error ls c = Some l /\ l = p ++ q /\ p <> [] /\ file_text g (firstn c ls ++ [p])).
Proof.
  assert (NB : forall g : text, ~ In newline g -> count_occ ascii_dec g newline = 0%nat) by (intros g; apply (count_occ_not_In ascii_dec g newline)).
  induction 1 as [|b B E|b f ls B F IH]; intros g h Eq c.
  - destruct g; [|discriminate]. left. exists 0%nat. split; [left; reflexivity|constructor].
  - destruct g as [|x g]; [left; exists 0%nat; split; [left; reflexivity|constructor]|].
    assert (B' : line_body (x :: g)) by (rewrite Eq in B; apply (body_prefix _ _ B)).
    right. exists b, (x :: g), h. unfold c. rewrite NB by apply B'. cbn [firstn nth_error app]. split; [reflexivity|]. split; [exact Eq|]. split; [discriminate|]. constructor; [exact B'|discriminate].
  - rewrite app_assoc in Eq. apply app_eq_app in Eq as (d & [[Eq _]|[Eq Ef]]).
    + destruct d as [|z d] using rev_ind.
      * rewrite app_nil_r in Eq. subst g. left. exists 1%nat. split.
        -- left. unfold c. rewrite count_occ_app, (NB b) by apply B. reflexivity.
        -- cbn [firstn]. change (firstn 0 ls) with (@nil text). rewrite <- (app_nil_r (b ++ [newline])) at 1. rewrite <- app_assoc. constructor; [exact B|constructor].
      * clear IHd. rewrite app_assoc in Eq. apply app_inj_tail in Eq as [Eq _]. destruct g as [|x g]; [left; exists 0%nat; split; [left; reflexivity|constructor]|].
        assert (B' : line_body (x :: g)) by (rewrite Eq in B; apply (body_prefix _ _ B)).
        right. exists (b ++ [newline]), (x :: g), (d ++ [newline]). unfold c. rewrite NB by apply B'. cbn [firstn nth_error app]. split; [reflexivity|]. split; [rewrite Eq, <- app_assoc; reflexivity|]. split; [discriminate|]. constructor; [exact B'|discriminate].
    + assert (C : c = S (count_occ ascii_dec d newline)) by (unfold c; rewrite Eq, !count_occ_app, (NB b) by apply B; reflexivity).
      rewrite C. destruct (IH d h Ef) as [(n & N & T)|(l & p & q & L1 & L2 & L3 & L4)].
      * left. exists (S n). split; [lia|]. cbn [firstn]. subst g. rewrite <- app_assoc. constructor; assumption.
      * right. exists l, p, q. cbn [nth_error firstn app]. split; [exact L1|]. split; [exact L2|]. split; [exact L3|]. subst g. rewrite <- app_assoc. apply (file_cons b d); assumption.
Qed.
Lemma firstn_upd {A} (l : list A) n x p : nth_error l n = Some x -> firstn (S n) (upd l n p) = firstn n l ++ [p].
Proof.
  revert n. induction l as [|y l IH]; intros [|n] H; try discriminate; [reflexivity|]. cbn [upd]. change (firstn (S (S n)) (y :: upd l n p)) with (y :: firstn (S n) (upd l n p)). rewrite (IH n H). reflexivity.
Qed.
Lemma splits_put {A} n p (t : tree A text) : splits (put_leaf n p t) = splits t.
Proof.
  revert n. induction t as [a v|a f x l IHl r IHr]; intros n; cbn [put_leaf]; destruct (n =? 0)%nat; try reflexivity. destruct (n <=? size l)%nat; cbn [splits]; rewrite ?IHl, ?IHr; reflexivity.
Qed.
Lemma values_put {A} (P : text -> Prop) n p (t : tree A text) : P p -> Forall P (values t) -> Forall P (values (put_leaf n p t)).
Proof.
  intros Hp. revert n. induction t as [a v|a f x l IHl r IHr]; intros n H; cbn [put_leaf]; destruct (n =? 0)%nat; try exact H; [constructor; [exact Hp|constructor]|].
  cbn [values] in H. inversion H as [|? ? H1 H2]; subst. apply Forall_app in H2 as [H2 H3]. destruct (n <=? size l)%nat; cbn [values]; constructor; auto; apply Forall_app; auto.
Qed.
Lemma put_leaf_values {A} (p : text) (t : tree A text) : forall n v, leaf_in n t = Some v -> In p (values (put_leaf n p t)).
Proof.
  induction t as [a w|a f x l IHl r IHr]; intros n v; cbn [leaf_in put_leaf]; destruct (n =? 0)%nat; try discriminate; [intros _; left; reflexivity|].
  destruct (n <=? size l)%nat; intros H; cbn [values]; right; apply in_or_app; [left|right]; eauto.
Qed.
Lemma put_line_values {A} (p : text) (ts : list (tree A text)) : forall n v, leaf_line n ts = Some v -> exists t, In t (put_line n p ts) /\ In p (values t).
Proof.
  induction ts as [|t ts IH]; intros [|n] v; cbn [leaf_line put_line]; try discriminate. destruct (n <? size t)%nat; intros H.
  - eexists. split; [left; reflexivity|]. eapply put_leaf_values; eauto.
  - destruct (IH _ _ H) as (t' & I1 & I2). exists t'. split; [right; exact I1|exact I2].
Qed.

Section Xgb.
Context {N : num}.
Variable rd : text -> option N.
Variable lower : N -> N.
Notation cell := (cell_of rd).
Lemma xgb_ok_put n p ts : readable rd p -> Forall (xgb_ok rd) ts -> Forall (xgb_ok rd) (put_line n p ts).
Proof.
  intros R H. revert n. induction H as [|t ts (H1 & H2) H IH]; intros [|n]; cbn [put_line]; try constructor; try assumption; [split; assumption|].
  destruct (n <? size t)%nat; constructor; auto; [|split; assumption]. split; [unfold fits16 in *; rewrite splits_put; exact H1|apply values_put; assumption].
Qed.
Lemma comma_prefix a b : comma_tail (a ++ b) -> comma_tail a.
Proof. intros [H|(r & H)]; [left; destruct a; [reflexivity|discriminate]|]. destruct a as [|x a]; [left; reflexivity|]. injection H as -> _. right. exists a. reflexivity. Qed.
Lemma unmatched_step p s : unmatched "<" p -> xgb_step rd lower s p = Ok s.
Proof. intros (U1 & U2 & U3). unfold xgb_step, dump_line. rewrite U1. unfold xgb_node, xgb_leaf. rewrite U2, U3. cbn [bind fst snd]. destruct s; reflexivity. Qed.
Lemma unmatched_load f g L p : file_text g L -> file_text f (L ++ [p]) -> unmatched "<" p -> xgb_load rd lower f = xgb_load rd lower g.
Proof.
  intros G F U. unfold xgb_load. rewrite (file_lines_text _ _ G), (file_lines_text _ _ F). unfold dump_count. rewrite fold_left_app. cbn [fold_left]. pose proof U as (U1 & U2 & U3). rewrite U1.
  assert (X1 : xgb_node p = None) by exact U2. assert (X2 : xgb_leaf p = None) by (unfold xgb_leaf; rewrite U3; reflexivity). rewrite X1, X2.
  set (c := fold_left _ L (0, 0)). destruct c as [nt nn]. cbn [fst snd]. replace (nn + 0 + 0) with nn by lia.
  destruct (initialize (N:=N) nt nn) as [e|x]; cbn [bind]; [|reflexivity]. rewrite foldM_app. destruct (foldM (xgb_step rd lower) L _) as [s|x]; cbn [bind]; [|reflexivity].
  cbn [foldM]. rewrite unmatched_step by exact U. reflexivity.
Qed.
Lemma bad_leaf ts ls c p a f : xgb_lines 0 ts ls -> Forall (xgb_ok rd) ts -> file_text f (firstn c ls ++ [p]) -> reads_leaf "<" a p -> rd a = None ->
  xgb_load rd lower f = Err ValueError.
Proof.
  intros D G F (W & NC & i & K1 & K2 & K3) R. unfold xgb_load. rewrite (file_lines_text _ _ F). unfold dump_count. rewrite fold_left_app.
  rewrite (count_cut xgb_node xgb_leaf "<" comma_tail xgb_node_ok xgb_leaf_ok 0 ts ls D). cbn [fold_left fst snd]. rewrite K3.
  assert (X1 : xgb_node p = None) by exact K1.
  assert (X2 : xgb_leaf p = Some (i, a)) by (unfold xgb_leaf; rewrite K2; rewrite <- (app_nil_r a) at 1; rewrite until_comma_ok; [reflexivity|exact W|exact NC|left; reflexivity]).
  rewrite X1, X2. set (us := annotate_all 0 ts). assert (US : map (relabel fst) us = ts) by apply annotate_all_fst.
  assert (PU : pieces c ts = map (fun p => (fst p, relabel fst (snd p))) (pieces c us)).
  { rewrite <- (pieces_map (relabel fst)) by (intros; apply size_relabel). rewrite US. reflexivity. }
  assert (P1 : length (pieces c ts) = length (pieces c us)) by (rewrite PU, map_length; reflexivity).
  assert (P2 : there c ts = there c us) by (unfold there; rewrite PU, map_map; reflexivity).
  rewrite P1, P2. replace (0 + Z.of_nat (there c us) + 0 + 1) with (Z.of_nat (S (there c us))) by lia. rewrite Z.add_0_l.
  destruct (initialize_ok (N:=N) (length (pieces c us)) (S (there c us))) as (e0 & I1 & I2 & I3 & I4 & I5 & I6 & I7 & I8).
  rewrite I1. cbn [bind].
  destruct (cut_loop rd xgb_node xgb_leaf xgb_number (xgb_thr rd lower) (fun x => lower (cell x)) "<" comma_tail xgb_node_ok xgb_leaf_ok 0 us ls) with
    (m := c) (kn := 0%nat) (a := 0) (e := e0) (root := 0) (num := 0) (b := @None N) (lr := @None N) as (s & C1 & _).
  { rewrite US. exact D. } { reflexivity. } { reflexivity. } { apply xgb_good. exact G. } { apply annotate_order. }
  { rewrite I6. exact I7. } { lia. } { lia. } { exact I8. } { rewrite I4, repeat_length. lia. } { rewrite I5, repeat_length. lia. }
  rewrite foldM_app. unfold xgb_step at 1. fold xgb_number. rewrite C1. cbn [bind foldM]. unfold xgb_step, dump_line. rewrite K3, X1, X2. cbn [bind fst snd].
  rewrite (py_strip_word a a (padded_refl a)) by assumption. unfold read_cell. rewrite R. reflexivity.
Qed.

(** What loading any beginning of a dump gives: [n] lines count, of the trees [ts']. *)
Theorem xgb_any ts ls f g h X : xgb_lines 0 ts ls -> file_text f ls -> Forall (xgb_ok rd) ts -> Forall no_bracket ts -> f = g ++ h ->
  let c := count_occ ascii_dec g newline in
  exists n ts',
    (ts' = ts /\ (n = c \/ n = S c) \/
     n = S c /\ exists v a b : text, leaf_line c ts = Some v /\ v = a ++ b /\ a <> [] /\ ts' = put_line c a ts) /\
    (xgb_load rd lower g = Err ValueError /\ ~ Forall (fun t => Forall (readable rd) (values t)) ts' \/
     exists e, xgb_load rd lower g = Ok e /\
      let kept := kept_trees n (map (convert (fun x => lower (cell x)) cell) ts') in
      let ws := map (fun _ => none) kept in
      (no_node n ts' -> X <> [] -> basic_scoring e X = Err MemFault) /\
      (~ no_node n ts' -> (forall row, In row X -> covers row kept) ->
        basic_scoring e X = Ok (map (ensemble_score ws kept) X) /\ exists leaves, detailed_scoring e X = Ok (leaves, map (tree_scores ws kept) X))).
Proof.
  intros D F G BR E c.
  assert (GO : forall n ts' ls' g', xgb_lines 0 ts' ls' -> file_text g' (firstn n ls') -> Forall (xgb_ok rd) ts' ->
     exists e, xgb_load rd lower g' = Ok e /\
      let kept := kept_trees n (map (convert (fun x => lower (cell x)) cell) ts') in
      let ws := map (fun _ => none) kept in
      (no_node n ts' -> X <> [] -> basic_scoring e X = Err MemFault) /\
      (~ no_node n ts' -> (forall row, In row X -> covers row kept) ->
        basic_scoring e X = Ok (map (ensemble_score ws kept) X) /\ exists leaves, detailed_scoring e X = Ok (leaves, map (tree_scores ws kept) X))).
  { intros n ts' ls' g' D' F' G'. destruct (xgb_first_of rd lower ts' ls' g' n D' F' G') as (e & L & _). exists e. split; [exact L|]. intros kept ws. split.
    - intros NN NX. destruct (xgb_no_node_of rd lower ts' ls' g' n X D' F' G' NN NX) as (e' & L' & S). rewrite L in L'. injection L' as <-. exact S.
    - intros NN CV. destruct (xgb_beginning_of rd lower ts' ls' g' n X D' F' G' NN CV) as (e' & L' & S). rewrite L in L'. injection L' as <-. exact S. }
  pose proof (file_prefix f ls F g h E) as FP. cbv zeta in FP. fold c in FP. destruct FP as [(n & Hn & T)|(l & p & q & L1 & L2 & L3 & L4)].
  - exists n, ts. split; [left; split; [reflexivity|exact Hn]|]. right. eapply GO; eauto.
  - destruct (trees_cut "<" (or_introl eq_refl) comma_tail comma_prefix 0 ts ls D BR c l p q L1 L2) as [U|[D'|(v & a & b & V1 & V2 & V3 & V4 & V5)]].
    + exists c, ts. split; [left; auto|]. right. rewrite (unmatched_load g (concat (firstn c ls)) (firstn c ls) p (file_first f ls F c) L4 U). eapply GO; [exact D|apply (file_first f ls F c)|exact G].
    + exists (S c), ts. split; [left; auto|]. right. eapply GO; [exact D'| |exact G]. rewrite (firstn_upd ls c l p L1). exact L4.
    + exists (S c), (put_line c a ts). split; [right; split; [reflexivity|]; exists v, a, b; auto|].
      destruct (rd a) as [y|] eqn:RA; [right|left].
      * eapply GO; [exact V4| |apply xgb_ok_put; [exists y; exact RA|exact G]]. rewrite (firstn_upd ls c l p L1). exact L4.
      * split; [exact (bad_leaf ts ls c p a g D G L4 V5 RA)|]. destruct (put_line_values a ts c v V1) as (t' & I1 & I2). intros H. rewrite Forall_forall in H. specialize (H t' I1). rewrite Forall_forall in H. destruct (H a I2) as (y & Y). congruence.
Qed.
End Xgb.
