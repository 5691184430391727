(** Lemmas on the readers of M_Text.v. *)
From Coq Require Import Ascii String List ZArith Lia Bool.
From Verif Require Import Base Lists M_Text M_Svmlight S_Svmlight.
Import ListNotations.
Local Open Scope Z_scope.

Ltac all_chars c := destruct c as [[] [] [] [] [] [] [] []].

Lemma is_space_iff c : is_space c = true <-> blank_char c.
Proof.
  unfold blank_char. split.
  - all_chars c; vm_compute; intros H; try discriminate H; tauto.
  - intros H. cbn [map In] in H. repeat (destruct H as [<-|H]; [reflexivity|]). destruct H.
Qed.
Lemma is_digit_iff c : is_digit c = true <-> digit_char c.
Proof.
  unfold digit_char. split.
  - all_chars c; vm_compute; intros H; try discriminate H; tauto.
  - intros H. cbn [lit list_ascii_of_string In] in H.
    repeat (destruct H as [<-|H]; [reflexivity|]). destruct H.
Qed.
Lemma is_space_false c : is_space c = false <-> ~ blank_char c.
Proof. rewrite <- is_space_iff. destruct (is_space c); split; intros; try congruence; try tauto. Qed.
Lemma is_digit_false c : is_digit c = false <-> ~ digit_char c.
Proof. rewrite <- is_digit_iff. destruct (is_digit c); split; intros; try congruence; try tauto. Qed.

Lemma digit_not_blank c : digit_char c -> ~ blank_char c.
Proof.
  intros H. apply is_digit_iff in H. apply is_space_false. revert H.
  all_chars c; vm_compute; congruence.
Qed.

(** Nothing, or a first character refused by [p]. *)
Definition stops (p : ascii -> bool) (r : text) : Prop :=
  match r with [] => True | c :: _ => p c = false end.

Lemma span_app p a b :
  Forall (fun c => p c = true) a -> stops p b -> span p (a ++ b) = (a, b).
Proof.
  intros Ha Hb. induction Ha as [|c a Hc Ha IH]; cbn [app span].
  - destruct b as [|c b]; [reflexivity|]. cbn [span]. cbn in Hb. rewrite Hb. reflexivity.
  - rewrite Hc, IH. reflexivity.
Qed.

Lemma span_spec p l : let '(a, b) := span p l in
  l = a ++ b /\ Forall (fun c => p c = true) a /\ stops p b.
Proof.
  induction l as [|c r IH]; cbn [span]; [repeat split; constructor|].
  destruct (p c) eqn:E.
  - destruct (span p r) as [a b]. destruct IH as (-> & H1 & H2).
    repeat split; auto.
  - repeat split; auto.
Qed.

Lemma digits_span ds b : digits ds -> stops is_digit b -> span is_digit (ds ++ b) = (ds, b).
Proof.
  intros H. apply span_app. eapply Forall_impl; [|exact H]. intros c. apply is_digit_iff.
Qed.
Lemma blanks_skip w b : blanks w -> stops is_space b -> skip_space (w ++ b) = b.
Proof.
  intros H Hb. unfold skip_space. rewrite span_app; auto.
  eapply Forall_impl; [|exact H]. intros c. apply is_space_iff.
Qed.

Lemma fold_digits l a :
  fold_left (fun a c => 10 * a + (code c - 48)) l a = a * 10 ^ Z.of_nat (length l) + dvalue l.
Proof.
  revert a. induction l as [|c r IH]; intros a.
  - cbn [fold_left length dvalue]. change (10 ^ Z.of_nat 0) with 1. ring.
  - cbn [fold_left]. rewrite IH. cbn [length dvalue]. unfold code.
    rewrite Nat2Z.inj_succ, Z.pow_succ_r by lia. ring.
Qed.
Lemma digits_val_dvalue l : digits_val l = dvalue l.
Proof. unfold digits_val. rewrite fold_digits. ring. Qed.

Lemma dvalue_nonneg l : digits l -> 0 <= dvalue l.
Proof.
  intros H. induction H as [|c r Hc Hr IH]; cbn [dvalue]; [lia|].
  assert (0 <= Z.of_nat (nat_of_ascii c) - 48).
  { cbn [digit_char lit list_ascii_of_string In] in Hc. unfold digit_char in Hc.
    cbn [lit list_ascii_of_string In] in Hc.
    repeat (destruct Hc as [<-|Hc]; [vm_compute; discriminate|]). destruct Hc. }
  assert (0 <= 10 ^ Z.of_nat (length r)) by (apply Z.pow_nonneg; lia). nia.
Qed.

(** ** Signs, mantissas, exponents *)
Definition is_sign (c : ascii) : bool := Ascii.eqb c "-" || Ascii.eqb c "+".

Lemma take_sign_other l : stops is_sign l -> take_sign l = (false, l).
Proof.
  destruct l as [|c r]; [reflexivity|]. cbn [stops]. intros H.
  all_chars c; try reflexivity; vm_compute in H; discriminate H.
Qed.
Lemma take_sign_text sg neg r : sign_text sg neg -> stops is_sign r ->
  take_sign (sg ++ r) = (neg, r).
Proof. intros H Hr. destruct H; cbn [app]; auto using take_sign_other. Qed.

Lemma digit_not_sign c : digit_char c -> is_sign c = false.
Proof. intros H. apply is_digit_iff in H. revert H. all_chars c; vm_compute; congruence. Qed.

Definition is_dot (c : ascii) : bool := Ascii.eqb c ".".
Definition is_e (c : ascii) : bool := (code c =? 101) || (code c =? 69).

Lemma take_mantissa_dot ip fp r : digits ip -> digits fp -> stops is_digit r ->
  take_mantissa (ip ++ lit "." ++ fp ++ r) = (ip, fp, r).
Proof.
  intros Hi Hf Hr. unfold take_mantissa. rewrite digits_span; auto; [|reflexivity].
  cbn [lit list_ascii_of_string app]. rewrite digits_span; auto.
Qed.
Lemma take_mantissa_int ip r : digits ip -> stops is_digit r -> stops is_dot r ->
  take_mantissa (ip ++ r) = (ip, [], r).
Proof.
  intros Hi Hr Hd. unfold take_mantissa. rewrite digits_span; auto.
  destruct r as [|c r]; [reflexivity|]. cbn [stops] in Hd.
  all_chars c; try reflexivity. vm_compute in Hd. discriminate Hd.
Qed.

Lemma take_exponent_none r : stops is_e r -> take_exponent r = None.
Proof.
  destruct r as [|c r]; [reflexivity|]. cbn [stops take_exponent]. unfold is_e. intros ->. reflexivity.
Qed.
Lemma take_exponent_some c sg neg ds r : In c (lit "eE") -> sign_text sg neg -> digits ds -> ds <> [] ->
  stops is_digit r -> take_exponent (c :: sg ++ ds ++ r) = Some (neg, ds, r).
Proof.
  intros Hc Hs Hd Hn Hr. cbn [take_exponent].
  assert (E : (code c =? 101) || (code c =? 69) = true)
    by (cbn in Hc; destruct Hc as [<-|[<-|[]]]; reflexivity).
  rewrite E. rewrite (take_sign_text sg neg (ds ++ r)); auto.
  - rewrite digits_span; auto.
  - destruct ds as [|d ds]; [congruence|]. cbn [app stops]. inversion Hd; subst.
    apply digit_not_sign; auto.
Qed.

Lemma is_nil_false {l : text} : l <> [] -> is_nil l = false.
Proof. destruct l; [congruence|reflexivity]. Qed.

(** What may follow a numeral without being absorbed by it. *)
Definition after_number (r : text) : Prop :=
  stops is_digit r /\ stops is_dot r /\ stops is_e r.

Lemma numeral_head t n : numeral t n ->
  exists sg neg r, sign_text sg neg /\ t = sg ++ r /\
    ((exists c r', r = c :: r' /\ digit_char c) \/
     (exists c r', r = "."%char :: c :: r' /\ digit_char c)).
Proof.
  intros H. destruct H as [sg neg ip dot fp ex e Hs Hi Hf Hn Hd He].
  exists sg, neg, (ip ++ dot ++ fp ++ ex). split; [exact Hs|]. split; [reflexivity|].
  destruct ip as [|c ip].
  - cbn [app] in Hn. destruct fp as [|c fp]; [congruence|].
    destruct Hd as [->|[_ Hd]]; [|discriminate]. right. exists c, (fp ++ ex).
    split; [reflexivity|]. inversion Hf; auto.
  - left. exists c, (ip ++ dot ++ fp ++ ex). split; [reflexivity|]. inversion Hi; auto.
Qed.

Lemma numeral_stops_sign sg neg ip dot fp ex e (r : text) :
  sign_text sg neg -> digits ip -> digits fp -> ip ++ fp <> [] ->
  (dot = lit "." \/ dot = [] /\ fp = []) -> exponent_text ex e ->
  stops is_sign (ip ++ dot ++ fp ++ ex ++ r).
Proof.
  intros Hs Hi Hf Hn Hd He. destruct ip as [|c ip].
  - destruct Hd as [->|[-> ->]]; [reflexivity|]. cbn in Hn. congruence.
  - cbn [app stops]. inversion Hi; subst. apply digit_not_sign; auto.
Qed.

Lemma numeral_parts sg neg ip dot fp ex e r :
  sign_text sg neg -> digits ip -> digits fp -> ip ++ fp <> [] ->
  (dot = lit "." \/ dot = [] /\ fp = []) -> exponent_text ex e -> after_number r ->
  take_mantissa (ip ++ dot ++ fp ++ ex ++ r) = (ip, fp, ex ++ r) /\
  match take_exponent (ex ++ r) with
  | None => e = 0 /\ ex = []
  | Some (s, ed, r2) => ed <> [] /\ e = exp_val s ed /\ r2 = r
  end.
Proof.
  intros Hs Hi Hf Hn Hd He (R1 & R2 & R3).
  assert (Hx : stops is_digit (ex ++ r) /\ stops is_dot (ex ++ r)).
  { destruct He as [|c sg' neg' ds Hc]; [cbn [app]; auto|]. cbn [app stops].
    cbn in Hc. destruct Hc as [<-|[<-|[]]]; split; reflexivity. }
  split.
  - destruct Hd as [->|[-> ->]].
    + apply take_mantissa_dot; tauto.
    + cbn [app]. apply take_mantissa_int; tauto.
  - destruct He as [|c sg' neg' ds Hc Hsg Hds Hne].
    + cbn [app]. rewrite take_exponent_none; auto.
    + cbn [app]. rewrite <- app_assoc. rewrite take_exponent_some with (neg := neg'); auto.
      split; [auto|]. split; [|reflexivity]. unfold exp_val. rewrite digits_val_dvalue. reflexivity.
Qed.

Lemma head_not_blank t n r : numeral t n -> stops is_space (t ++ r).
Proof.
  intros H. destruct (numeral_head _ _ H) as (sg & neg & q & Hs & -> & Hq).
  destruct Hs; cbn [app lit list_ascii_of_string stops]; try reflexivity.
  destruct Hq as [(c & r' & -> & Hc)|(c & r' & -> & Hc)]; cbn [app stops]; [|reflexivity].
  apply is_space_false, digit_not_blank, Hc.
Qed.

(** [in >> y] reads exactly a numeral. *)
Lemma istream_float_numeral w t n r : blanks w -> numeral t n -> after_number r ->
  istream_float (w ++ t ++ r) = Some (n, r).
Proof.
  intros Hw H Hr. unfold istream_float.
  rewrite blanks_skip; [|exact Hw|eapply head_not_blank; eauto].
  destruct H as [sg neg ip dot fp ex e Hs Hi Hf Hn Hd He].
  replace ((sg ++ ip ++ dot ++ fp ++ ex) ++ r) with (sg ++ (ip ++ dot ++ fp ++ ex ++ r))
    by (rewrite !app_assoc; reflexivity).
  rewrite (take_sign_text sg neg); [|exact Hs|eapply numeral_stops_sign; eauto].
  destruct (numeral_parts sg neg ip dot fp ex e r) as [E1 E2]; auto.
  rewrite E1. rewrite (is_nil_false Hn).
  destruct (take_exponent (ex ++ r)) as [[[s ed] r2]|].
  - destruct E2 as (H1 & -> & ->). rewrite (is_nil_false H1). unfold mk_dec.
    rewrite digits_val_dvalue. reflexivity.
  - destruct E2 as (-> & ->). cbn [app]. unfold mk_dec. rewrite digits_val_dvalue. reflexivity.
Qed.

Lemma strip_ci_head p l : p <> [] -> stops (fun c => Ascii.eqb (hd c p) (lower c)) l -> strip_ci p l = None.
Proof.
  destruct p as [|a p]; [congruence|]. intros _. destruct l as [|c l]; [reflexivity|].
  cbn [stops hd strip_ci]. intros ->. reflexivity.
Qed.

(** sscanf "%lf" on a whole numeral. *)
Lemma scan_double_numeral t n : numeral t n -> scan_double t = Some n.
Proof.
  intros H. unfold scan_double.
  assert (E0 : skip_space t = t).
  { rewrite <- (app_nil_l t) at 1. apply blanks_skip; [constructor|].
    rewrite <- (app_nil_r t). eapply head_not_blank; eauto. }
  rewrite E0. clear E0.
  destruct H as [sg neg ip dot fp ex e Hs Hi Hf Hn Hd He].
  pose proof (numeral_stops_sign sg neg ip dot fp ex e [] Hs Hi Hf Hn Hd He) as Hst.
  rewrite app_nil_r in Hst.
  rewrite (take_sign_text sg neg); auto.
  assert (Hhd : forall p, In p [lit "nan"; lit "inf"] -> strip_ci p (ip ++ dot ++ fp ++ ex) = None).
  { intros p Hp. destruct ip as [|c ip].
    - destruct Hd as [->|[-> ->]]; [|cbn in Hn; congruence].
      destruct Hp as [<-|[<-|[]]]; reflexivity.
    - inversion Hi as [|? ? Hc _]; subst. cbn [app].
      unfold digit_char in Hc. cbn [lit list_ascii_of_string In] in Hc.
      destruct Hp as [<-|[<-|[]]];
        repeat (destruct Hc as [<-|Hc]; [reflexivity|]); destruct Hc. }
  rewrite (Hhd (lit "nan")) by (cbn; auto). rewrite (Hhd (lit "inf")) by (cbn; auto).
  destruct (numeral_parts sg neg ip dot fp ex e []) as [E1 E2]; auto; [repeat split|].
  rewrite !app_nil_r in E1, E2. rewrite E1. rewrite (is_nil_false Hn).
  destruct (take_exponent ex) as [[[s ed] r2]|].
  - destruct E2 as (H1 & -> & ->). rewrite (is_nil_false H1). unfold mk_dec.
    rewrite digits_val_dvalue. reflexivity.
  - destruct E2 as (-> & ->). unfold mk_dec. rewrite digits_val_dvalue. reflexivity.
Qed.

(** sscanf "%u" on a natural number. *)
Lemma scan_uint_natural t n r : natural t n -> stops is_digit r -> scan_uint (t ++ r) = Some (n, r).
Proof.
  intros (Hd & Hne & Hv & Hlt) Hr. unfold scan_uint.
  assert (Hst : stops is_sign (t ++ r) /\ stops is_space (t ++ r)).
  { destruct t as [|c t]; [congruence|]. inversion Hd; subst. cbn [app stops].
    split; [apply digit_not_sign; auto|apply is_space_false, digit_not_blank; auto]. }
  assert (E0 : skip_space (t ++ r) = t ++ r)
    by (rewrite <- (app_nil_l (t ++ r)) at 1; apply blanks_skip; [constructor|tauto]).
  rewrite E0, take_sign_other by tauto.
  rewrite digits_span by auto. rewrite (is_nil_false Hne).
  rewrite digits_val_dvalue, Hv.
  pose proof (dvalue_nonneg t Hd) as H0. rewrite Hv in H0.
  destruct (2 ^ 64 - 1 <? n) eqn:E; [apply Z.ltb_lt in E; lia|].
  f_equal. f_equal. unfold i32, wrap_s.
  rewrite Z.mod_small by lia. destruct (n <? 2 ^ (32 - 1)) eqn:E'; [reflexivity|].
  apply Z.ltb_ge in E'. change (2 ^ (32 - 1)) with (2 ^ 31) in E'. lia.
Qed.

Lemma scan_uint_int t q r : int_text t q -> stops is_digit r -> scan_uint (t ++ r) = Some (q, r).
Proof.
  intros (sg & neg & ds & -> & Hs & Hd & Hne & Hq & Hb) Hr. unfold scan_uint.
  assert (Hst : stops is_sign (ds ++ r) /\ stops is_space ((sg ++ ds) ++ r)).
  { destruct ds as [|c ds]; [congruence|]. inversion Hd; subst. cbn [app stops].
    split; [apply digit_not_sign; auto|]. destruct Hs; cbn [app stops lit list_ascii_of_string]; try reflexivity.
    apply is_space_false, digit_not_blank; auto. }
  assert (E0 : skip_space ((sg ++ ds) ++ r) = (sg ++ ds) ++ r)
    by (rewrite <- (app_nil_l ((sg ++ ds) ++ r)) at 1; apply blanks_skip; [constructor|tauto]).
  rewrite E0, <- app_assoc, (take_sign_text sg neg) by tauto.
  rewrite digits_span by auto. rewrite (is_nil_false Hne).
  rewrite digits_val_dvalue. pose proof (dvalue_nonneg ds Hd) as H0.
  destruct (2 ^ 64 - 1 <? dvalue ds) eqn:E; [apply Z.ltb_lt in E; destruct neg; lia|].
  f_equal. f_equal. rewrite Hq. unfold i32, wrap_s, u64, wrap_u. change (2 ^ (32 - 1)) with (2 ^ 31).
  destruct neg.
  - assert (Ht : (- dvalue ds) mod 2 ^ 64 mod 2 ^ 32 = (- dvalue ds) mod 2 ^ 32).
    { change (2 ^ 64) with (2 ^ 32 * 2 ^ 32). rewrite Z.rem_mul_r by lia.
      rewrite (Z.mul_comm (2 ^ 32) (_ mod _)), Z.mod_add by lia. apply Z.mod_mod. lia. }
    rewrite Ht. destruct (Z.eq_dec (dvalue ds) 0) as [->|Hn]; [reflexivity|].
    rewrite Z.mod_opp_l_nz; [|lia|rewrite Z.mod_small by lia; lia].
    rewrite Z.mod_small by lia.
    destruct (2 ^ 32 - dvalue ds <? 2 ^ 31) eqn:E'; [apply Z.ltb_lt in E'; lia|]. lia.
  - rewrite Z.mod_small by lia. destruct (dvalue ds <? 2 ^ 31) eqn:E'; [reflexivity|].
    apply Z.ltb_ge in E'. lia.
Qed.

(** ** Words *)
Definition is_word_char (c : ascii) : bool := negb (is_space c).

Lemma words_from_tok t cur r : Forall (fun c => ~ blank_char c) t -> cur ++ t <> [] ->
  stops is_word_char r -> words_from cur (t ++ r) = (rev cur ++ t) :: words r.
Proof.
  intros Ht. revert cur. induction Ht as [|c t Hc Ht IH]; intros cur Hne Hr.
  - cbn [app]. rewrite app_nil_r in *. destruct r as [|d r].
    + cbn [words_from]. rewrite (is_nil_false Hne). reflexivity.
    + cbn [stops] in Hr. apply negb_false_iff in Hr. unfold words. cbn [words_from]. rewrite Hr.
      rewrite (is_nil_false Hne). reflexivity.
  - cbn [app words_from]. apply is_space_false in Hc. rewrite Hc.
    rewrite IH; [|discriminate|exact Hr]. cbn [rev]. rewrite <- app_assoc. reflexivity.
Qed.
Lemma words_tok t r : word t -> stops is_word_char r -> words (t ++ r) = t :: words r.
Proof. intros [H1 H2] Hr. unfold words at 1. rewrite words_from_tok; auto. Qed.
Lemma words_blanks w r : blanks w -> words (w ++ r) = words r.
Proof.
  intros H. induction H as [|c w Hc Hw IH]; [reflexivity|].
  unfold words in *. cbn [app words_from]. apply is_space_iff in Hc. rewrite Hc. exact IH.
Qed.
Lemma words_nil w : blanks w -> words w = [].
Proof. intros H. rewrite <- (app_nil_r w), words_blanks; auto. Qed.

(** [before] on a text without the character. *)
Lemma before_app c t r : ~ In c t -> (r = [] \/ exists q, r = c :: q) -> before c (t ++ r) = t.
Proof.
  intros Ht Hr. unfold before. rewrite span_app; [reflexivity| |].
  - apply Forall_forall. intros x Hx. apply negb_true_iff. apply Ascii.eqb_neq. congruence.
  - destruct Hr as [->|[q ->]]; [exact I|]. cbn [stops]. rewrite Ascii.eqb_refl. reflexivity.
Qed.
Lemma before_none c t : ~ In c t -> before c t = t.
Proof. intros H. rewrite <- (app_nil_r t) at 1. apply before_app; auto. Qed.

(** ** Lines *)
Lemma lines_from_cons b cur r : ~ In newline b ->
  lines_from cur (b ++ newline :: r) = (rev cur ++ b ++ [newline]) :: file_lines r.
Proof.
  revert cur. induction b as [|c b IH]; intros cur Hb.
  - cbn [app lines_from]. rewrite Ascii.eqb_refl. reflexivity.
  - cbn [app lines_from]. replace (Ascii.eqb c newline) with false.
    + rewrite IH; [|intros H; apply Hb; right; exact H]. cbn [rev]. rewrite <- !app_assoc. reflexivity.
    + symmetry. apply Ascii.eqb_neq. intros ->. apply Hb. left. reflexivity.
Qed.
Lemma lines_from_last b cur : ~ In newline b -> cur ++ b <> [] -> lines_from cur b = [rev cur ++ b].
Proof.
  revert cur. induction b as [|c b IH]; intros cur Hb Hne.
  - cbn [lines_from]. rewrite app_nil_r in *. rewrite (is_nil_false Hne). reflexivity.
  - cbn [lines_from]. replace (Ascii.eqb c newline) with false.
    + rewrite IH; [|intros H; apply Hb; right; exact H|discriminate]. cbn [rev]. rewrite <- app_assoc. reflexivity.
    + symmetry. apply Ascii.eqb_neq. intros ->. apply Hb. left. reflexivity.
Qed.
Lemma file_lines_text f ls : file_text f ls -> file_lines f = ls.
Proof.
  intros H. induction H as [|b [H1 H2] Hne|b f ls [H1 H2] Hf IH]; [reflexivity| |].
  - unfold file_lines. rewrite lines_from_last; auto.
  - unfold file_lines. cbn [app]. rewrite lines_from_cons; auto. cbn [rev app]. rewrite IH. reflexivity.
Qed.
Lemma file_text_no_nul f ls l : file_text f ls -> In l ls -> ~ In nul l /\ l <> [].
Proof.
  intros H. revert l. induction H as [|b [H1 H2] Hne|b f ls [H1 H2] Hf IH]; intros l Hl.
  - destruct Hl.
  - destruct Hl as [<-|[]]. auto.
  - destruct Hl as [<-|Hl]; [|auto]. split; [|destruct b; discriminate].
    intros Hin. apply in_app_or in Hin. destruct Hin as [Hin|[Hin|[]]]; auto. discriminate Hin.
Qed.

(** ** Printing integers *)
Lemma digit_char_of d : 0 <= d < 10 -> digit_char (ascii_of_nat (Z.to_nat (d + 48))) /\
  Z.of_nat (nat_of_ascii (ascii_of_nat (Z.to_nat (d + 48)))) - 48 = d.
Proof.
  intros H. assert (E : In d [0; 1; 2; 3; 4; 5; 6; 7; 8; 9]) by (cbn [In]; lia).
  cbn [In] in E. repeat (destruct E as [<-|E]; [split; [vm_compute; tauto|reflexivity]|]). destruct E.
Qed.
Lemma dvalue_snoc l c : dvalue (l ++ [c]) = 10 * dvalue l + (Z.of_nat (nat_of_ascii c) - 48).
Proof.
  rewrite <- !digits_val_dvalue. unfold digits_val. rewrite fold_left_app. cbn [fold_left]. reflexivity.
Qed.
Lemma nat_digits_spec fuel n : 0 <= n < 2 ^ Z.of_nat fuel ->
  (0 < fuel)%nat -> digits (nat_digits fuel n) /\ nat_digits fuel n <> [] /\ dvalue (nat_digits fuel n) = n.
Proof.
  revert n. induction fuel as [|f IH]; intros n Hn Hf; [lia|]. cbn [nat_digits].
  destruct (n <? 10) eqn:E.
  - apply Z.ltb_lt in E. destruct (digit_char_of n) as [H1 H2]; [lia|].
    split; [constructor; auto|]. split; [discriminate|]. cbn [dvalue length].
    rewrite H2. change (10 ^ Z.of_nat 0) with 1. ring.
  - apply Z.ltb_ge in E. destruct (digit_char_of (n mod 10)) as [H1 H2]; [apply Z.mod_pos_bound; lia|].
    assert (Hf' : (0 < f)%nat).
    { destruct f; [|lia]. change (2 ^ Z.of_nat 1) with 2 in Hn. lia. }
    destruct (IH (n / 10)) as (D & N & E'); auto.
    { split; [apply Z.div_pos; lia|]. apply Z.div_lt_upper_bound; [lia|].
      rewrite Nat2Z.inj_succ, Z.pow_succ_r in Hn by lia. lia. }
    split; [apply Forall_app; split; auto|]. split; [destruct (nat_digits f (n / 10)); discriminate|].
    rewrite dvalue_snoc, E', H2. pose proof (Z.div_mod n 10). lia.
Qed.
Lemma show_Z_int n : - 2 ^ 31 <= n < 2 ^ 31 -> int_text (show_Z n) n.
Proof.
  intros H. unfold show_Z.
  assert (Hf : forall m, 0 <= m -> digits (nat_digits (S (Z.to_nat (Z.log2 m))) m) /\
    nat_digits (S (Z.to_nat (Z.log2 m))) m <> [] /\ dvalue (nat_digits (S (Z.to_nat (Z.log2 m))) m) = m).
  { intros m Hm. apply nat_digits_spec; [|lia]. split; [lia|].
    rewrite Nat2Z.inj_succ, Z2Nat.id by apply Z.log2_nonneg.
    destruct (Z.eq_dec m 0) as [->|Hn]; [reflexivity|]. apply Z.log2_spec. lia. }
  destruct (n <? 0) eqn:E.
  - apply Z.ltb_lt in E. destruct (Hf (- n)) as (D & N & V); [lia|].
    exists (lit "-"), true, (nat_digits (S (Z.to_nat (Z.log2 (- n)))) (- n)).
    split; [reflexivity|]. split; [constructor|]. repeat split; auto; lia.
  - apply Z.ltb_ge in E. destruct (Hf n) as (D & N & V); [lia|].
    exists [], false, (nat_digits (S (Z.to_nat (Z.log2 n))) n).
    split; [reflexivity|]. split; [constructor|]. repeat split; auto; lia.
Qed.
Lemma show_Z_natural n : 0 <= n < 2 ^ 31 -> natural (show_Z n) n.
Proof.
  intros H. unfold show_Z. destruct (n <? 0) eqn:E; [apply Z.ltb_lt in E; lia|].
  destruct (nat_digits_spec (S (Z.to_nat (Z.log2 n))) n) as (D & N & V).
  - split; [lia|]. rewrite Nat2Z.inj_succ, Z2Nat.id by apply Z.log2_nonneg.
    destruct (Z.eq_dec n 0) as [->|Hn]; [reflexivity|]. apply Z.log2_spec. lia.
  - lia.
  - repeat split; auto. lia.
Qed.
