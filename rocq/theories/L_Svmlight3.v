(** Malformed svmlight files are rejected; comment lines do not matter (C15). *)
From Coq Require Import Ascii String List ZArith Lia Bool.
From Verif Require Import Base Lists M_Text M_Dataset M_Svmlight S_Svmlight L_Text L_Reshape L_Svmlight L_Svmlight2.
Import ListNotations.
Local Open Scope Z_scope.

Lemma take_sign_spec l neg r : take_sign l = (neg, r) -> exists sg, sign_text sg neg /\ l = sg ++ r.
Proof.
  intros H. destruct l as [|c l].
  - cbn in H. injection H as <- <-. exists []. split; [constructor|reflexivity].
  - destruct (is_sign c) eqn:E.
    + unfold is_sign in E. apply orb_prop in E as [E|E]; apply Ascii.eqb_eq in E; subst c; cbn in H;
        injection H as <- <-; eexists; (split; [constructor|reflexivity]).
    + rewrite take_sign_other in H by exact E. injection H as <- <-. exists [].
      split; [constructor|reflexivity].
Qed.
Lemma span_digit_spec l a b : span is_digit l = (a, b) -> l = a ++ b /\ digits a /\ stops is_digit b.
Proof.
  intros H. pose proof (span_spec is_digit l) as S. rewrite H in S. destruct S as (-> & S1 & S2).
  repeat split; auto. eapply Forall_impl; [|exact S1]. intros c. apply is_digit_iff.
Qed.

Lemma no_number_mantissa t neg r0 ip fp r1 : no_number t -> take_sign t = (neg, r0) ->
  take_mantissa r0 = (ip, fp, r1) -> ip ++ fp = [].
Proof.
  intros Hn Hs Hm. apply take_sign_spec in Hs as (sg & Hsg & ->).
  destruct (Hn sg neg r0 Hsg eq_refl) as [N1 N2]. unfold take_mantissa in Hm.
  destruct (span is_digit r0) as [a b] eqn:E. apply span_digit_spec in E as (-> & Ha & Hb).
  destruct a as [|c a]; [|exfalso; apply N1; exists c, (a ++ b); split; [reflexivity|inversion Ha; auto]]. cbn [app] in *.
  destruct b as [|c b].
  - injection Hm as <- <- _. reflexivity.
  - destruct (Ascii.eqb c ".") eqn:Ec.
    + apply Ascii.eqb_eq in Ec. subst c.
      destruct (span is_digit b) as [a' b'] eqn:E'. apply span_digit_spec in E' as (-> & Ha' & Hb').
      injection Hm as <- <- _. destruct a' as [|c' a']; [reflexivity|].
      exfalso. apply N2. inversion Ha'; subst. exists c', (a' ++ b'). split; [reflexivity|assumption].
    + apply Ascii.eqb_neq in Ec.
      assert (Hm' : ([], [], c :: b) = (ip, fp, r1)).
      { rewrite <- Hm. all_chars c; try reflexivity. exfalso. apply Ec. reflexivity. }
      injection Hm' as <- <- _. reflexivity.
Qed.

Lemma stops_skip w t : blanks w -> (forall c r, t = c :: r -> ~ blank_char c) -> skip_space (w ++ t) = t.
Proof.
  intros Hw Ht. apply blanks_skip; [exact Hw|]. destruct t as [|c t]; [exact I|].
  cbn [stops]. apply is_space_false. eapply Ht. reflexivity.
Qed.

Lemma istream_none w t : blanks w -> (forall c r, t = c :: r -> ~ blank_char c) -> no_number t ->
  istream_float (w ++ t) = None.
Proof.
  intros Hw Ht Hn. unfold istream_float. rewrite stops_skip by assumption.
  destruct (take_sign t) as [neg r0] eqn:E. destruct (take_mantissa r0) as [[ip fp] r1] eqn:E'.
  rewrite (no_number_mantissa _ _ _ _ _ _ Hn E E'). reflexivity.
Qed.

Lemma istream_exponent w sg neg ip dot fp c sg' neg' t : blanks w -> sign_text sg neg -> digits ip -> digits fp -> ip ++ fp <> [] ->
  (dot = lit "." \/ dot = [] /\ fp = []) -> In c (lit "eE") -> sign_text sg' neg' ->
  (forall a r, t = a :: r -> ~ digit_char a /\ (sg' = [] -> ~ In a (lit "+-"))) ->
  istream_float (w ++ sg ++ ip ++ dot ++ fp ++ c :: sg' ++ t) = None.
Proof.
  intros Hw Hs Hi Hf Hn Hd Hc Hs' Ht. unfold istream_float.
  pose proof (numeral_intro sg neg ip dot fp [] 0 Hs Hi Hf Hn Hd exp_none) as Hnum.
  pose proof (head_not_blank _ _ (c :: sg' ++ t) Hnum) as Hb.
  replace ((sg ++ ip ++ dot ++ fp ++ []) ++ c :: sg' ++ t) with (sg ++ ip ++ dot ++ fp ++ c :: sg' ++ t) in Hb
    by (rewrite app_nil_r, <- !app_assoc; reflexivity).
  rewrite blanks_skip by assumption.
  pose proof (numeral_stops_sign sg neg ip dot fp [] 0 (c :: sg' ++ t) Hs Hi Hf Hn Hd exp_none) as Hst. cbn [app] in Hst.
  rewrite (take_sign_text sg neg) by assumption.
  assert (Hx : stops is_digit (c :: sg' ++ t) /\ stops is_dot (c :: sg' ++ t)).
  { cbn [stops]. cbn in Hc. destruct Hc as [<-|[<-|[]]]; split; reflexivity. }
  assert (Hm : take_mantissa (ip ++ dot ++ fp ++ c :: sg' ++ t) = (ip, fp, c :: sg' ++ t)).
  { destruct Hd as [->|[-> ->]]; [apply take_mantissa_dot; tauto|]. cbn [app]. apply take_mantissa_int; tauto. }
  rewrite Hm, (is_nil_false Hn). cbn [take_exponent].
  assert (E : (code c =? 101) || (code c =? 69) = true) by (cbn in Hc; destruct Hc as [<-|[<-|[]]]; reflexivity).
  rewrite E.
  assert (D : stops is_digit t).
  { destruct t as [|a t]; [exact I|]. cbn [stops]. destruct (is_digit a) eqn:Ea; [|reflexivity].
    exfalso. apply (proj1 (Ht a t eq_refl)). apply is_digit_iff. exact Ea. }
  assert (T : take_sign (sg' ++ t) = (neg', t)).
  { destruct Hs'; [|reflexivity|reflexivity]. cbn [app]. destruct t as [|a t]; [reflexivity|].
    apply take_sign_other. cbn [stops]. destruct (is_sign a) eqn:Ea; [|reflexivity].
    exfalso. apply (proj2 (Ht a t eq_refl) eq_refl). unfold is_sign in Ea. apply orb_prop in Ea as [Ea|Ea]; apply Ascii.eqb_eq in Ea; subst a; cbn; auto. }
  rewrite T. pose proof (digits_span [] t (Forall_nil _) D) as Sp. cbn [app] in Sp. rewrite Sp. reflexivity.
Qed.

Lemma lower_in c a : Ascii.eqb a (lower c) = true -> In a (lit "inftya") ->
  c = a \/ nat_of_ascii c = (nat_of_ascii a - 32)%nat.
Proof.
  intros H Ha. apply Ascii.eqb_eq in H. subst a. revert Ha.
  all_chars c; vm_compute; intuition discriminate.
Qed.
Lemma strip_ci_cons a p c l : strip_ci (a :: p) (c :: l) = if Ascii.eqb a (lower c) then strip_ci p l else None.
Proof. reflexivity. Qed.
Lemma lower_cases x c : In x (lit "infa") -> Ascii.eqb x (lower c) = true ->
  (x = "i"%char -> In c (lit "iI")) /\ (x = "n"%char -> In c (lit "nN")) /\
  (x = "f"%char -> In c (lit "fF")) /\ (x = "a"%char -> In c (lit "aA")).
Proof.
  intros Hx H. apply Ascii.eqb_eq in H. subst x. revert Hx.
  all_chars c; vm_compute; intuition discriminate.
Qed.

Lemma scan_double_none v : (forall c r, v = c :: r -> ~ blank_char c) -> no_number v -> no_inf_nan v ->
  scan_double v = None.
Proof.
  intros Hb Hn Hi. unfold scan_double. rewrite <- (app_nil_l v) at 1.
  rewrite stops_skip; [|constructor|exact Hb].
  destruct (take_sign v) as [neg r0] eqn:E.
  pose proof E as E0. apply take_sign_spec in E0 as (sg & Hsg & Ev).
  assert (H1 : strip_ci (lit "nan") r0 = None).
  { destruct (strip_ci (lit "nan") r0) as [r|] eqn:Es; [|reflexivity]. exfalso.
    cbn [lit list_ascii_of_string] in Es.
    destruct r0 as [|a [|b [|c r']]]; rewrite ?strip_ci_cons in Es;
      repeat match type of Es with context [if ?x then _ else _] => destruct x eqn:?; [|discriminate] end;
      try discriminate Es.
    destruct (Hi sg neg a b c r' Hsg Ev) as [_ N]. apply N.
    repeat split; eapply lower_cases; eauto; vm_compute; tauto. }
  assert (H2 : strip_ci (lit "inf") r0 = None).
  { destruct (strip_ci (lit "inf") r0) as [r|] eqn:Es; [|reflexivity]. exfalso.
    cbn [lit list_ascii_of_string] in Es.
    destruct r0 as [|a [|b [|c r']]]; rewrite ?strip_ci_cons in Es;
      repeat match type of Es with context [if ?x then _ else _] => destruct x eqn:?; [|discriminate] end;
      try discriminate Es.
    destruct (Hi sg neg a b c r' Hsg Ev) as [N _]. apply N.
    repeat split; eapply lower_cases; eauto; vm_compute; tauto. }
  rewrite H1, H2. destruct (take_mantissa r0) as [[ip fp] r1] eqn:E'.
  rewrite (no_number_mantissa _ _ _ _ _ _ Hn E E'). reflexivity.
Qed.

Lemma scan_uint_spec t q r : (forall c r, t = c :: r -> ~ blank_char c) -> scan_uint t = Some (q, r) ->
  exists sg neg ds, sign_text sg neg /\ digits ds /\ ds <> [] /\ t = sg ++ ds ++ r /\ stops is_digit r.
Proof.
  intros Hb H. unfold scan_uint in H. rewrite <- (app_nil_l t) in H.
  rewrite stops_skip in H; [|constructor|exact Hb].
  destruct (take_sign t) as [neg r0] eqn:E. apply take_sign_spec in E as (sg & Hsg & ->).
  destruct (span is_digit r0) as [ds r1] eqn:E'. apply span_digit_spec in E' as (-> & Hd & Hst).
  destruct ds as [|d ds]; [discriminate|]. cbn [is_nil] in H. injection H as _ <-.
  exists sg, neg, (d :: ds). repeat split; auto. discriminate.
Qed.

Lemma split_unique (c : ascii) a b a' b' : ~ In c a -> ~ In c a' -> a ++ c :: b = a' ++ c :: b' -> a = a' /\ b = b'.
Proof.
  revert a'. induction a as [|x a IH]; intros a' Ha Ha' H.
  - destruct a' as [|x' a']; cbn [app] in H; [injection H as <-; auto|].
    injection H as <- _. exfalso. apply Ha'. left. reflexivity.
  - destruct a' as [|x' a']; cbn [app] in H.
    + injection H as -> _. exfalso. apply Ha. left. reflexivity.
    + injection H as <- H. destruct (IH a') as [-> ->]; auto.
      * intros Hin. apply Ha. right. exact Hin.
      * intros Hin. apply Ha'. right. exact Hin.
Qed.

Lemma word_head t : word t -> forall c r, t = c :: r -> ~ blank_char c.
Proof. intros [_ H] c r ->. inversion H; auto. Qed.

Lemma bad_pair_none t : word t -> bad_pair t -> scan_pair t = None.
Proof.
  intros Hw Hb. unfold scan_pair. destruct (scan_uint t) as [[q r]|] eqn:E; [|reflexivity].
  apply scan_uint_spec in E as (sg & neg & ds & Hs & Hd & Hne & Et & _); [|apply word_head, Hw].
  destruct r as [|c r]; [reflexivity|].
  destruct (Ascii.eqb c ":") eqn:Ec.
  - apply Ascii.eqb_eq in Ec. subst c. destruct Hb as [Hb|(i & v & Et' & Hi & Hv & Hv')].
    + exfalso. apply (Hb sg neg ds r Hs Hd Hne). exact Et.
    + rewrite app_assoc in Et. rewrite Et in Et'. symmetry in Et'.
      assert (Hnc : ~ In ":"%char (sg ++ ds)).
      { intros Hin. apply in_app_or in Hin as [Hin|Hin].
        - destruct Hs; cbn in Hin; intuition discriminate.
        - unfold digits in Hd. rewrite Forall_forall in Hd. apply Hd in Hin. unfold digit_char in Hin.
          cbn [lit list_ascii_of_string In] in Hin.
          repeat (destruct Hin as [Hin|Hin]; [discriminate Hin|]). destruct Hin. }
      destruct (split_unique ":"%char i v (sg ++ ds) r) as [-> <-]; auto.
      rewrite scan_double_none; auto.
      intros c r' ->. destruct Hw as [_ Hw]. rewrite Et in Hw. apply Forall_app in Hw as [_ Hw].
      inversion Hw as [|? ? _ Hw']; subst. inversion Hw'; auto.
  - apply Ascii.eqb_neq in Ec. all_chars c; try reflexivity. exfalso. apply Ec. reflexivity.
Qed.

Lemma no_int_none r : (forall c r', r = c :: r' -> ~ blank_char c) -> no_int r -> scan_uint r = None.
Proof.
  intros Hb H. destruct (scan_uint r) as [[q r']|] eqn:E; [|reflexivity]. exfalso.
  apply scan_uint_spec in E as (sg & neg & ds & Hs & Hd & Hne & Et & _); [|exact Hb].
  destruct ds as [|c ds]; [congruence|]. apply (H sg neg c (ds ++ r') Hs); [exact Et|]. inversion Hd; auto.
Qed.
Lemma strip_spec p l r : strip p l = Some r -> l = p ++ r.
Proof.
  revert l. induction p as [|a p IH]; intros l H.
  - cbn [strip] in H. injection H as ->. reflexivity.
  - destruct l as [|c l]; cbn [strip] in H; [discriminate|].
    destruct (Ascii.eqb a c) eqn:E; [|discriminate]. apply Ascii.eqb_eq in E. subst c. cbn [app]. f_equal. auto.
Qed.

(** ** Words around a given one *)
Lemma words_from_snoc l : forall cur c, blank_char c -> forall r,
  words_from cur (l ++ c :: r) = words_from cur (l ++ [c]) ++ words r.
Proof.
  induction l as [|x l IH]; intros cur c Hc r; cbn [app words_from].
  - apply is_space_iff in Hc. rewrite Hc. destruct (is_nil cur); reflexivity.
  - destruct (is_space x); [|apply IH; exact Hc]. destruct (is_nil cur); [apply IH; exact Hc|].
    cbn [app]. f_equal. apply IH. exact Hc.
Qed.
Lemma words_around pre t post : word t ->
  (pre = [] \/ exists p c, pre = p ++ [c] /\ blank_char c) ->
  (post = [] \/ exists c p, post = c :: p /\ blank_char c) ->
  words (pre ++ t ++ post) = words pre ++ t :: words post.
Proof.
  intros Ht Hpre Hpost.
  assert (Hst : stops is_word_char post).
  { destruct Hpost as [->|(c & p & -> & Hc)]; [exact I|]. cbn [stops]. unfold is_word_char.
    apply is_space_iff in Hc. rewrite Hc. reflexivity. }
  rewrite <- (words_tok t post) by assumption.
  destruct Hpre as [->|(p & c & -> & Hc)]; [reflexivity|].
  rewrite <- app_assoc. cbn [app]. unfold words at 1 2. apply words_from_snoc. exact Hc.
Qed.
Lemma words_from_nonempty l cur : cur <> [] -> words_from cur l <> [].
Proof.
  revert cur. induction l as [|c l IH]; intros cur Hc; cbn [words_from].
  - rewrite (is_nil_false Hc). discriminate.
  - destruct (is_space c); [rewrite (is_nil_false Hc); discriminate|]. apply IH. discriminate.
Qed.
Lemma words_nil_blanks l : words l = [] -> blanks l.
Proof.
  unfold words. induction l as [|c l IH]; intros H; [constructor|]. cbn [words_from] in H.
  destruct (is_space c) eqn:E.
  - constructor; [apply is_space_iff, E|apply IH, H].
  - exfalso. revert H. apply words_from_nonempty. discriminate.
Qed.

Section Reject.
Context {V : Type} (F : fmt V).

Lemma features_reject toks t : In t toks -> scan_pair t = None ->
  forall s, foldM (feature_step F) toks s = Err RuntimeError.
Proof.
  intros Hin Ht. induction toks as [|t' toks IH]; [destruct Hin|]. intros [data next]. cbn [foldM].
  unfold feature_step at 1. destruct (scan_pair t') as [[idx x]|] eqn:E; [|reflexivity]. cbn [bind].
  destruct Hin as [->|Hin]; [congruence|]. apply IH. exact Hin.
Qed.

Lemma comment_head_blanks w ty y r : blanks w -> numeral ty y -> ~ comment_line (w ++ ty ++ r) /\ w ++ ty ++ r <> [].
Proof.
  intros Hw Hty. pose proof (numeral_plain _ _ Hty) as Hp. pose proof (blanks_plain _ Hw) as Hpw.
  assert (Hne : ty <> []).
  { intros ->. destruct (numeral_head _ _ Hty) as (sg & neg & r' & _ & E & Hr).
    symmetry in E. apply app_eq_nil in E as [_ ->]. destruct Hr as [(c & r' & E & _)|(c & r' & E & _)]; discriminate. }
  assert (Hall : Forall plain (w ++ ty)) by (apply Forall_app; auto).
  rewrite app_assoc. destruct (w ++ ty) as [|c l] eqn:E.
  - apply app_eq_nil in E as [_ ->]. congruence.
  - inversion Hall as [|? ? [Hc _] _]; subst. split; [|discriminate]. intros [x Hx]. cbn [app] in Hx. congruence.
Qed.

Lemma C15_line_lemma l (st : lstate) : bad_line l -> parse_line F l st = Err RuntimeError.
Proof.
  intros H. destruct H as [w t cmt Hw Hh Hn Ht Hc Hnc|w sg neg ip dot fp c sg' neg' t cmt Hw Hs Hi Hf Hn Hd He Hs' Hh Ht Hc|w ty y w' cmt Hw Hty Hw' Hc
                          |w ty y w1 pre t post cmt Hw Hty Hw1 Hne1 Hpre Hpost Ht Hth Epre Epost Hbad Hq Hc].
  - destruct (w ++ t ++ cmt) as [|c0 l0] eqn:El; [reflexivity|].
    rewrite parse_line_eq by (first [discriminate|exact Hnc]). cbn zeta. rewrite <- El, app_assoc.
    rewrite before_app; [|intros Hin; apply in_app_or in Hin as [Hin|Hin];
      [exact (plain_no_hash _ (blanks_plain _ Hw) Hin)|exact (Hh Hin)]|exact Hc].
    rewrite istream_none by assumption. reflexivity.
  - pose proof (numeral_intro sg neg ip dot fp [] 0 Hs Hi Hf Hn Hd exp_none) as Hnum.
    destruct (comment_head_blanks w _ _ (c :: sg' ++ t ++ cmt) Hw Hnum) as [H1 H2].
    replace (w ++ (sg ++ ip ++ dot ++ fp ++ []) ++ c :: sg' ++ t ++ cmt) with (w ++ sg ++ ip ++ dot ++ fp ++ c :: sg' ++ t ++ cmt) in H1, H2
      by (rewrite app_nil_r, <- !app_assoc; reflexivity).
    rewrite parse_line_eq by assumption. cbn zeta.
    replace (w ++ sg ++ ip ++ dot ++ fp ++ c :: sg' ++ t ++ cmt) with ((w ++ sg ++ ip ++ dot ++ fp ++ c :: sg' ++ t) ++ cmt)
      by (rewrite <- !app_assoc; cbn [app]; rewrite <- !app_assoc; reflexivity).
    rewrite before_app; [| |exact Hc].
    + rewrite (istream_exponent w sg neg ip dot fp c sg' neg' t) by assumption. reflexivity.
    + pose proof (plain_no_hash _ (numeral_plain _ _ Hnum)) as Hp. rewrite app_nil_r in Hp.
      intros Hin. apply in_app_or in Hin as [Hin|Hin]; [exact (plain_no_hash _ (blanks_plain _ Hw) Hin)|].
      replace (sg ++ ip ++ dot ++ fp ++ c :: sg' ++ t) with ((sg ++ ip ++ dot ++ fp) ++ c :: sg' ++ t) in Hin by (rewrite <- !app_assoc; reflexivity).
      apply in_app_or in Hin as [Hin|[Hin|Hin]]; [exact (Hp Hin)|subst c; cbn in He; intuition discriminate|].
      apply in_app_or in Hin as [Hin|Hin]; [|exact (Hh Hin)]. destruct Hs'; cbn in Hin; intuition discriminate.
  - destruct (comment_head_blanks w ty y (w' ++ cmt) Hw Hty) as [H1 H2].
    rewrite parse_line_eq by assumption. cbn zeta.
    replace (w ++ ty ++ w' ++ cmt) with ((w ++ ty ++ w') ++ cmt) by (rewrite <- !app_assoc; reflexivity).
    rewrite before_app; [|apply plain_no_hash; repeat (apply Forall_app; split);
      eauto using blanks_plain, numeral_plain|exact Hc].
    rewrite (istream_float_numeral w ty y); auto.
    + rewrite words_nil by exact Hw'. destruct (rd_label F y); reflexivity.
    + destruct w' as [|c w']; [repeat split|]. rewrite <- (app_nil_r (c :: w')).
      apply stops_blank; [exact Hw'|discriminate].
  - destruct (comment_head_blanks w ty y (w1 ++ pre ++ t ++ post ++ cmt) Hw Hty) as [H1 H2].
    rewrite parse_line_eq by assumption. cbn zeta.
    replace (w ++ ty ++ w1 ++ pre ++ t ++ post ++ cmt) with ((w ++ ty ++ w1 ++ pre ++ t ++ post) ++ cmt)
      by (rewrite <- !app_assoc; reflexivity).
    rewrite before_app; [| |exact Hc].
    2: { intros Hin. repeat (apply in_app_or in Hin as [Hin|Hin]).
         - exact (plain_no_hash _ (blanks_plain _ Hw) Hin).
         - exact (plain_no_hash _ (numeral_plain _ _ Hty) Hin).
         - exact (plain_no_hash _ (blanks_plain _ Hw1) Hin).
         - exact (Hpre Hin).
         - exact (Hth Hin).
         - exact (Hpost Hin). }
    rewrite (istream_float_numeral w ty y); auto; [|apply stops_blank; auto].
    destruct (rd_label F y) as [yv|]; [|reflexivity].
    rewrite words_blanks by exact Hw1. rewrite words_around by assumption.
    pose proof (bad_pair_none t Ht Hbad) as Hnone.
    destruct (words pre) as [|tok toks] eqn:Ew.
    + cbn [app]. apply words_nil_blanks in Ew. specialize (Hq Ew).
      assert (Hsq : scan_qid t = None).
      { unfold scan_qid. destruct (strip (lit "qid:") t) as [r|] eqn:Es; [|reflexivity].
        apply strip_spec in Es. rewrite no_int_none; [reflexivity| |apply Hq; exact Es].
        intros c r' ->. destruct Ht as [_ Ht]. rewrite Es in Ht. apply Forall_app in Ht as [_ Ht].
        inversion Ht; auto. }
      rewrite Hsq. rewrite (features_reject _ t); [reflexivity|left; reflexivity|exact Hnone].
    + cbn [app]. assert (Hin : In t (toks ++ t :: words post)) by (apply in_or_app; right; left; reflexivity).
      destruct (scan_qid tok) as [q|].
      * rewrite (features_reject _ t Hin Hnone). reflexivity.
      * rewrite (features_reject _ t); [reflexivity|right; exact Hin|exact Hnone].
Qed.

(** Files *)
Lemma parse_lines_reject a l b (st : lstate) : bad_line l -> ~ In nul l -> l <> [] ->
  (forall l', In l' a -> ~ In nul l' /\ l' <> []) -> exists e, parse_lines F (a ++ l :: b) st = Err e.
Proof.
  intros Hl Hnul Hne Ha. rewrite parse_lines_app by exact Ha.
  destruct (parse_lines F a st) as [st1|e]; [|exists e; reflexivity]. cbn [bind parse_lines].
  unfold c_string. rewrite before_none by exact Hnul. rewrite (is_nil_false Hne).
  rewrite C15_line_lemma by exact Hl. exists RuntimeError. reflexivity.
Qed.

Theorem C15_lemma f ls l : file_text f ls -> In l ls -> bad_line l ->
  exists e, load_svmlight_file F f = Err e.
Proof.
  intros Hf Hin Hl. apply in_split in Hin as (a & b & ->).
  assert (Hok : forall l', In l' (a ++ l :: b) -> ~ In nul l' /\ l' <> [])
    by (intros l' Hl'; eapply file_text_no_nul; [exact Hf|exact Hl']).
  destruct (Hok l) as [H1 H2]; [apply in_or_app; right; left; reflexivity|].
  unfold load_svmlight_file, parse_file. rewrite (file_lines_text _ _ Hf).
  assert (Hp : exists e, parse_lines F (a ++ l :: b) l_init = Err e).
  { apply (parse_lines_reject a l b l_init Hl H1 H2).
    intros l' Hl'. apply Hok. apply in_or_app. left. exact Hl'. }
  destruct Hp as [e E]. rewrite E. exists e. reflexivity.
Qed.

(** After well-formed lines the exception is the documented RuntimeError. *)
Theorem C15_exact_lemma f a l b es ys : file_text f (a ++ l :: b) -> bad_line l ->
  entries a es ->
  ((exists e r, es = e :: r /\ en_pairs e <> []) \/ (forall e, In e es -> en_pairs e = [])) ->
  Forall2 (fun e y => rd_label F (en_label e) = Some y) es ys ->
  Z.of_nat (length es * cols_width es) < 2 ^ 31 ->
  load_svmlight_file F f = Err RuntimeError.
Proof.
  intros Hf Hl He H1 Hys Hsz.
  assert (Hok : forall l', In l' (a ++ l :: b) -> ~ In nul l' /\ l' <> [])
    by (intros l' Hl'; eapply file_text_no_nul; [exact Hf|exact Hl']).
  destruct (Hok l) as [N1 N2]; [apply in_or_app; right; left; reflexivity|].
  unfold load_svmlight_file, parse_file. rewrite (file_lines_text _ _ Hf).
  rewrite parse_lines_app by (intros l' Hl'; apply Hok; apply in_or_app; left; exact Hl').
  destruct (parse_lines_entries F a es He) with (done := @nil entry) (st := @l_init V) (ys := ys)
    as (st & E & _); auto.
  - intros l' Hl'. apply Hok. apply in_or_app. left. exact Hl'.
  - repeat split. constructor.
  - destruct H1 as [(e & r & -> & Hp)|Hp]; [right; left; auto|]. right. right. apply Forall_forall. exact Hp.
  - rewrite E. cbn [bind parse_lines]. unfold c_string. rewrite before_none by exact N1.
    rewrite (is_nil_false N2). rewrite C15_line_lemma by exact Hl. reflexivity.
Qed.

(** Removing a comment line never changes the outcome. *)
Theorem C15_comment_lemma f f' a c b : file_text f (a ++ c :: b) -> file_text f' (a ++ b) ->
  comment_line c -> load_svmlight_file F f = load_svmlight_file F f'.
Proof.
  intros Hf Hf' Hc.
  assert (Hok : forall l', In l' (a ++ c :: b) -> ~ In nul l' /\ l' <> [])
    by (intros l' Hl'; eapply file_text_no_nul; [exact Hf|exact Hl']).
  destruct (Hok c) as [N1 N2]; [apply in_or_app; right; left; reflexivity|].
  unfold load_svmlight_file, parse_file. rewrite (file_lines_text _ _ Hf), (file_lines_text _ _ Hf').
  rewrite !parse_lines_app by (intros l' Hl'; apply Hok; apply in_or_app; left; exact Hl').
  destruct (parse_lines F a l_init) as [st|e]; [|reflexivity]. cbn [bind parse_lines].
  unfold c_string. rewrite before_none by exact N1. rewrite (is_nil_false N2).
  rewrite parse_comment by exact Hc. reflexivity.
Qed.
End Reject.
