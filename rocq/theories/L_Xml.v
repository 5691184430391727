(** Proofs for C87: the reader of M_Xml accepts the grammar of S_Xml. *)
From Coq Require Import Ascii String List ZArith Lia Bool.
From Verif Require Import Base Lists M_Text M_Loaders M_Xml S_Xml.
Import ListNotations.
Local Open Scope Z_scope.

(** Prefixes *)
Lemma eat_app : forall w r, eat w (w ++ r) = Some r.
Proof. induction w as [|c w IH]; intros r; [destruct r; reflexivity|]. cbn [eat app]. rewrite Ascii.eqb_refl. apply IH. Qed.
Lemma eat_some : forall w t r, eat w t = Some r -> t = w ++ r.
Proof.
  induction w as [|c w IH]; intros t r H; [destruct t; injection H as <-; reflexivity|]. destruct t as [|d t]; [discriminate H|]. cbn [eat] in H.
  destruct (Ascii.eqb_spec c d) as [->|]; [|discriminate H]. cbn [app]. f_equal. apply IH, H.
Qed.
Lemma eat_none : forall w t, (forall r, t <> w ++ r) -> eat w t = None.
Proof. intros w t H. destruct (eat w t) as [r|] eqn:E; [|reflexivity]. apply eat_some in E. contradiction (H r E). Qed.
Lemma eat_not : forall w t r, eat w t = None -> t <> w ++ r.
Proof. intros w t r H ->. rewrite eat_app in H. discriminate H. Qed.

(** Runs *)
Lemma span_some p : forall t a b, span p t = (a, b) -> t = a ++ b /\ Forall (fun c => p c = true) a /\ forall c r, b = c :: r -> p c = false.
Proof.
  induction t as [|c t IH]; intros a b H; cbn [span] in H; [injection H as <- <-; repeat split; [constructor|discriminate]|].
  destruct (p c) eqn:P.
  - destruct (span p t) as [a' b'] eqn:E. injection H as <- <-. destruct (IH a' b' eq_refl) as (-> & F & Q). repeat split; [constructor; assumption|exact Q].
  - injection H as <- <-. repeat split; [constructor|]. intros d r [= <- _]. exact P.
Qed.
Lemma span_app p : forall a b, Forall (fun c => p c = true) a -> (forall c r, b = c :: r -> p c = false) -> span p (a ++ b) = (a, b).
Proof.
  induction a as [|c a IH]; intros b F Q.
  - destruct b as [|d b]; [reflexivity|]. cbn [app span]. rewrite (Q d b eq_refl). reflexivity.
  - inversion_clear F. cbn [app span]. rewrite H, IH by assumption. reflexivity.
Qed.

(** Characters *)
Lemma code_char : forall c d, code c = code d -> c = d.
Proof. intros c d H. unfold code in H. apply Nat2Z.inj in H. rewrite <- (ascii_nat_embedding c), <- (ascii_nat_embedding d), H. reflexivity. Qed.
Lemma code_range : forall c, 0 <= code c < 256.
Proof. intros c. unfold code. pose proof (nat_ascii_bounded c). lia. Qed.
Lemma xspace_iff : forall c, xspace c = true <-> xblank c.
Proof. intros c. unfold xspace, xblank. rewrite !orb_true_iff, !Z.eqb_eq. cbn [In]. intuition lia. Qed.
Lemma xspace_no : forall c, xspace c = false <-> ~ xblank c.
Proof. intros c. rewrite <- xspace_iff. destruct (xspace c); intuition discriminate. Qed.
Lemma xlegal_iff : forall c, xlegal c = true <-> xchar c.
Proof. intros c. unfold xlegal, xchar. rewrite !orb_true_iff, andb_true_iff, !Z.eqb_eq, !Z.leb_le. cbn [In]. intuition lia. Qed.
Lemma xletter_iff : forall c, xletter c = true <-> start_char c.
Proof.
  intros c. unfold xletter, start_char. rewrite !orb_true_iff, !andb_true_iff, !Z.eqb_eq, !Z.leb_le. split.
  - intros [[H|H]|H]; [left; lia|right; left; lia|right; right]. apply code_char. exact H.
  - intros [H|[H| ->]]; [left; left; lia|left; right; lia|right; reflexivity].
Qed.
Lemma xname_char_iff : forall c, xname_char c = true <-> inner_char c.
Proof.
  intros c. unfold xname_char, inner_char. rewrite !orb_true_iff, xletter_iff, !Z.eqb_eq. unfold is_digit. rewrite andb_true_iff, !Z.leb_le. split.
  - intros [[[H|H]|H]|H]; [left; exact H|right; left; lia|right; right; left|right; right; right]; apply code_char; exact H.
  - intros [H|[H|[-> | ->]]]; [left; left; left; exact H|left; left; right; lia|left; right; reflexivity|right; reflexivity].
Qed.
Lemma Forall_iff {A} (P Q : A -> Prop) l : (forall x, P x <-> Q x) -> Forall P l <-> Forall Q l.
Proof. intros H. split; apply Forall_impl; intros x X; apply H, X. Qed.
Lemma blanks_iff : forall w, Forall (fun c => xspace c = true) w <-> xblanks w.
Proof. intros w. apply Forall_iff, xspace_iff. Qed.
Lemma skip_xspace_app : forall w r, xblanks w -> (forall c t, r = c :: t -> ~ xblank c) -> skip_xspace (w ++ r) = r.
Proof. intros w r B H. unfold skip_xspace. rewrite span_app; [reflexivity|apply blanks_iff, B|]. intros c t E. apply xspace_no, (H c t E). Qed.
Lemma skip_xspace_some : forall t, exists w, t = w ++ skip_xspace t /\ xblanks w /\ forall c r, skip_xspace t = c :: r -> ~ xblank c.
Proof.
  intros t. unfold skip_xspace. destruct (span xspace t) as [w r] eqn:E. destruct (span_some _ _ _ _ E) as (-> & F & Q). exists w. cbn [snd].
  split; [reflexivity|]. split; [apply blanks_iff, F|]. intros c u ->. apply xspace_no, (Q c u eq_refl).
Qed.

(** Names *)
Lemma lit_string : forall t, lit (string_of_list_ascii t) = t.
Proof. intros t. apply list_ascii_of_string_of_list_ascii. Qed.
Lemma string_lit : forall s, string_of_list_ascii (lit s) = s.
Proof. intros s. apply string_of_list_ascii_of_string. Qed.
Lemma xname_some : forall t n r, xname t = Some (n, r) -> t = n ++ r /\ xml_name (string_of_list_ascii n) /\ forall c u, r = c :: u -> ~ inner_char c.
Proof.
  intros [|c t] n r H; [discriminate H|]. cbn [xname] in H. destruct (xletter c) eqn:L; [|discriminate H]. destruct (span xname_char t) as [a b] eqn:E. injection H as <- <-.
  destruct (span_some _ _ _ _ E) as (-> & F & Q). split; [reflexivity|]. split.
  - exists c, a. split; [apply lit_string|]. split; [apply xletter_iff, L|]. apply (Forall_iff _ _ a xname_char_iff), F.
  - intros d u ->. rewrite <- xname_char_iff, (Q d u eq_refl). discriminate.
Qed.
Lemma xname_app : forall n r, xml_name n -> (forall c u, r = c :: u -> ~ inner_char c) -> xname (lit n ++ r) = Some (lit n, r).
Proof.
  intros n r (c & a & E & S & F) H. unfold lit. rewrite E. cbn [app xname]. apply xletter_iff in S. rewrite S.
  rewrite span_app; [reflexivity|apply (Forall_iff _ _ a xname_char_iff), F|]. intros d u U. destruct (xname_char d) eqn:X; [|reflexivity]. apply xname_char_iff in X. contradiction (H d u U X).
Qed.
Lemma name_first : forall n, xml_name n -> exists c r, lit n = c :: r /\ start_char c.
Proof. intros n (c & r & E & S & _). exists c, r. auto. Qed.
Lemma start_inner c : start_char c -> inner_char c. Proof. intros H. left. exact H. Qed.
Lemma not_inner : forall c, In c [" "; ">"; "/"; "="; "<"; "&"; """"; "'"; "!"; "?"; "#"; ";"]%char -> ~ inner_char c.
Proof. intros c H I. apply xname_char_iff in I. cbn [In] in H. repeat (destruct H as [<-|H]; [discriminate I|]). exact H. Qed.
Lemma blank_not_inner : forall c, xblank c -> ~ inner_char c.
Proof.
  intros c B I. unfold xblank in B. cbn [In] in B. destruct I as [[I|[I| ->]]|[I|[-> | ->]]]; try lia; vm_compute in B; intuition discriminate.
Qed.
Lemma not_blank : forall c, ~ In (code c) [32; 9; 10; 13] -> ~ xblank c. Proof. intros c H. exact H. Qed.

(** References *)
Lemma xdigit_table : forall c, (if xdigit c <? 16 then existsb (fun p => Ascii.eqb (fst p) c && (snd p =? xdigit c)) digit_table else true) && (0 <=? xdigit c) = true.
Proof. intros [[] [] [] [] [] [] [] []]; reflexivity. Qed.
Lemma xdigit_in : forall c, xdigit c < 16 -> In (c, xdigit c) digit_table.
Proof.
  intros c H. pose proof (xdigit_table c) as T. apply Z.ltb_lt in H. rewrite H in T. apply andb_true_iff in T as [T _]. apply existsb_exists in T as ([d n] & I & E). cbn [fst snd] in E.
  apply andb_true_iff in E as [E1 E2]. apply Ascii.eqb_eq in E1. apply Z.eqb_eq in E2. subst. exact I.
Qed.
Lemma xdigit_of : forall c n, In (c, n) digit_table -> xdigit c = n.
Proof. intros c n H. unfold digit_table in H. cbn [In] in H. repeat (destruct H as [[= <- <-]|H]; [reflexivity|]). destruct H. Qed.
Lemma numeral_iff : forall base ds v, base <= 16 -> numeral base ds v <-> ds <> [] /\ Forall (fun c => (xdigit c <? base) = true) ds /\ v = fold_left (fun a c => base * a + xdigit c) ds 0.
Proof.
  intros base ds v B.
  assert (F : forall l a, fold_left (fun a n => base * a + n) (map xdigit l) a = fold_left (fun a c => base * a + xdigit c) l a).
  { induction l as [|c l IH]; intros a; [reflexivity|]. cbn [map fold_left]. apply IH. }
  split.
  - intros (NE & ns & H & ->). split; [exact NE|]. assert (E : ns = map xdigit ds /\ Forall (fun c => (xdigit c <? base) = true) ds).
    { clear NE. induction H as [|c n ds ns [I L] _ [-> IH]]; [split; [reflexivity|constructor]|]. apply xdigit_of in I. subst n. split; [reflexivity|]. constructor; [apply Z.ltb_lt, L|exact IH]. }
    destruct E as [-> E]. split; [exact E|]. apply F.
  - intros (NE & H & ->). split; [exact NE|]. exists (map xdigit ds). split; [|symmetry; apply F].
    clear NE. induction H as [|c ds L _ IH]; [constructor|]. apply Z.ltb_lt in L. constructor; [split; [apply xdigit_in; lia|exact L]|exact IH].
Qed.
Lemma legal_value : forall v, (v =? 9) || (v =? 10) || (v =? 13) || ((32 <=? v) && (v <=? 127)) = true -> code (ascii_of_nat (Z.to_nat v)) = v /\ xchar (ascii_of_nat (Z.to_nat v)).
Proof.
  intros v H. rewrite !orb_true_iff, andb_true_iff, !Z.eqb_eq, !Z.leb_le in H. assert (C : code (ascii_of_nat (Z.to_nat v)) = v).
  { unfold code. rewrite nat_ascii_embedding by lia. lia. }
  split; [exact C|]. unfold xchar. rewrite C. cbn [In]. intuition lia.
Qed.
Lemma char_of_some : forall base t c r, base <= 16 -> char_of base t = Some (c, r) -> exists ds, t = ds ++ lit ";" ++ r /\ numeral base ds (code c) /\ xchar c.
Proof.
  intros base t c r B H. unfold char_of in H. destruct (span (fun c => xdigit c <? base) t) as [ds u] eqn:E. destruct (span_some _ _ _ _ E) as (-> & F & Q).
  assert (NE : ds <> []) by (intros ->; discriminate H). assert (H' : (opt r' <- eat (lit ";") u; if (fold_left (fun a c => base * a + xdigit c) ds 0 =? 9) || (fold_left (fun a c => base * a + xdigit c) ds 0 =? 10) || (fold_left (fun a c => base * a + xdigit c) ds 0 =? 13) || ((32 <=? fold_left (fun a c => base * a + xdigit c) ds 0) && (fold_left (fun a c => base * a + xdigit c) ds 0 <=? 127)) then Some (ascii_of_nat (Z.to_nat (fold_left (fun a c => base * a + xdigit c) ds 0)), r') else None) = Some (c, r)).
  { destruct ds; [contradiction NE; reflexivity|exact H]. }
  clear H. destruct (eat (lit ";") u) as [r'|] eqn:S; [|discriminate H']. apply eat_some in S. subst u.
  set (v := fold_left _ ds 0) in H'. match type of H' with (if ?b then _ else _) = _ => destruct b eqn:L end; [|discriminate H']. injection H' as <- <-.
  destruct (legal_value v L) as [C X]. exists ds. split; [reflexivity|]. split; [|exact X]. apply numeral_iff; [exact B|]. split; [exact NE|]. split; [exact F|exact C].
Qed.
Lemma char_of_app : forall base ds c r, base <= 16 -> numeral base ds (code c) -> xchar c -> char_of base (ds ++ lit ";" ++ r) = Some (c, r).
Proof.
  intros base ds c r B H X. apply numeral_iff in H as (NE & F & V); [|exact B]. unfold char_of. rewrite span_app; [|exact F|].
  2:{ intros d u [= <- _]. apply Z.ltb_ge. exact B. }
  rewrite <- V. rewrite eat_app. destruct ds as [|d ds]; [contradiction NE; reflexivity|].
  unfold xchar in X. cbn [In] in X. replace ((code c =? 9) || (code c =? 10) || (code c =? 13) || ((32 <=? code c) && (code c <=? 127))) with true.
  - unfold code. rewrite Nat2Z.id, ascii_nat_embedding. reflexivity.
  - symmetry. rewrite !orb_true_iff, andb_true_iff, !Z.eqb_eq, !Z.leb_le. intuition lia.
Qed.
Lemma reference_some : forall t c r, reference t = Some (c, r) -> exists s, lit "&" ++ t = s ++ r /\ ref_text s c.
Proof.
  intros t c r H. unfold reference in H.
  destruct (eat (lit "#x") t) as [u|] eqn:E1.
  { apply eat_some in E1. subst t. apply char_of_some in H as (ds & -> & N & X); [|lia]. exists (lit "&#x" ++ ds ++ lit ";"). split; [cbn [lit list_ascii_of_string app]; rewrite <- !app_assoc; reflexivity|]. apply ref_hex; assumption. }
  destruct (eat (lit "#") t) as [u|] eqn:E2.
  { apply eat_some in E2. subst t. apply char_of_some in H as (ds & -> & N & X); [|lia]. exists (lit "&#" ++ ds ++ lit ";"). split; [cbn [lit list_ascii_of_string app]; rewrite <- !app_assoc; reflexivity|]. apply ref_decimal; assumption. }
  destruct (eat (lit "amp;") t) as [u|] eqn:E3; [apply eat_some in E3; subst t; injection H as <- <-; eexists; split; [|apply (ref_entity "amp"); cbn; tauto]; reflexivity|].
  destruct (eat (lit "lt;") t) as [u|] eqn:E4; [apply eat_some in E4; subst t; injection H as <- <-; eexists; split; [|apply (ref_entity "lt"); cbn; tauto]; reflexivity|].
  destruct (eat (lit "gt;") t) as [u|] eqn:E5; [apply eat_some in E5; subst t; injection H as <- <-; eexists; split; [|apply (ref_entity "gt"); cbn; tauto]; reflexivity|].
  destruct (eat (lit "quot;") t) as [u|] eqn:E6; [apply eat_some in E6; subst t; injection H as <- <-; eexists; split; [|apply (ref_entity "quot"); cbn; tauto]; reflexivity|].
  destruct (eat (lit "apos;") t) as [u|] eqn:E7; [apply eat_some in E7; subst t; injection H as <- <-; eexists; split; [|apply (ref_entity "apos"); cbn; tauto]; reflexivity|discriminate H].
Qed.
Lemma reference_app : forall s c, ref_text s c -> exists s', s = "&"%char :: s' /\ forall r, reference (s' ++ r) = Some (c, r).
Proof.
  intros s c [n d I|ds d N X|ds d N X].
  - eexists. split; [reflexivity|]. intros r. unfold entities in I. cbn [In] in I. repeat (destruct I as [[= <- <-]|I]; [reflexivity|]). destruct I.
  - exists (lit "#" ++ ds ++ lit ";"). split; [reflexivity|]. intros r. rewrite <- !app_assoc. unfold reference. rewrite eat_none.
    + rewrite eat_app. apply char_of_app; [lia|exact N|exact X].
    + intros u E. injection E as E. apply numeral_iff in N as (NE & F & _); [|lia]. destruct ds as [|e ds]; [contradiction NE; reflexivity|]. injection E as E _. subst e. inversion_clear F. discriminate H.
  - exists (lit "#x" ++ ds ++ lit ";"). split; [reflexivity|]. intros r. rewrite <- !app_assoc. unfold reference. rewrite eat_app. apply char_of_app; [lia|exact N|exact X].
Qed.
Lemma ref_not_nil : forall s c, ref_text s c -> s <> [].
Proof. intros s c H. destruct (reference_app s c H) as (s' & -> & _). discriminate. Qed.
