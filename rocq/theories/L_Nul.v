(** Proofs: NUL bytes and trailing white space in data files. *)
From Coq Require Import Ascii String List ZArith Lia Bool.
From Verif Require Import Base Lists M_Text M_Svmlight S_Svmlight L_Text L_Svmlight L_Cut4 M_Dataset S_Nul.
Import ListNotations.
Local Open Scope Z_scope.

Lemma lines_split b t : forall cur, lines_from cur (b ++ newline :: t) = lines_from cur (b ++ [newline]) ++ file_lines t.
Proof.
  induction b as [|c b IH]; intros cur; cbn [app lines_from].
  - rewrite Ascii.eqb_refl. cbn [is_nil app]. reflexivity.
  - destruct (Ascii.eqb c newline); [|apply IH]. cbn [app]. rewrite IH. reflexivity.
Qed.
Lemma lines_app a t : whole_lines a -> file_lines (a ++ t) = file_lines a ++ file_lines t.
Proof. intros [->|[b ->]]; [reflexivity|]. rewrite <- app_assoc. cbn [app]. apply lines_split. Qed.
Lemma lines_inside b t : inside b -> file_lines (b ++ newline :: t) = (b ++ [newline]) :: file_lines t.
Proof. intros H. unfold file_lines at 1. rewrite lines_from_cons by exact H. reflexivity. Qed.
Lemma inside_app b c : inside b -> inside c -> inside (b ++ c).
Proof. unfold inside. rewrite in_app_iff. tauto. Qed.
Lemma inside_nul b c : inside b -> inside c -> inside (b ++ nul :: c).
Proof. intros B C. apply inside_app; [exact B|]. intros [D|D]; [discriminate D|exact (C D)]. Qed.
Lemma lines_one b : inside b -> b <> [] -> file_lines b = [b].
Proof. intros H N. unfold file_lines. rewrite lines_from_last; auto. Qed.
Lemma lines_begin x : forall cur, cur <> [] -> exists l r, lines_from cur x = (rev cur ++ l) :: r.
Proof.
  induction x as [|c x IH]; intros cur N; cbn [lines_from].
  - destruct cur; [destruct (N eq_refl)|]. exists [], []. cbn [is_nil]. rewrite app_nil_r. reflexivity.
  - destruct (Ascii.eqb c newline).
    + exists [c], (lines_from [] x). reflexivity.
    + destruct (IH (c :: cur)) as (l & r & E); [discriminate|]. exists (c :: l), r. rewrite E. cbn [rev]. rewrite <- app_assoc. reflexivity.
Qed.
Lemma lines_nul x : exists l r, file_lines (nul :: x) = (nul :: l) :: r.
Proof.
  unfold file_lines. cbn [lines_from]. change (Ascii.eqb nul newline) with false. cbn iota.
  destruct (lines_begin x [nul]) as (l & r & E); [discriminate|]. exists l, r. exact E.
Qed.

(** Every text has a visible part, without NUL. *)
Lemma first_of x (f : text) : ~ In x f \/ exists b r, f = b ++ x :: r /\ ~ In x b.
Proof.
  induction f as [|c f IH]; [left; intros []|]. destruct (ascii_dec c x) as [->|D]; [right; exists [], f; auto|].
  destruct IH as [H|(b & r & -> & H)]; [left|right; exists (c :: b), r; split; [reflexivity|]]; intros [B|B]; auto.
Qed.
Theorem shown_total f : exists g, shown f g /\ ~ In nul g.
Proof.
  remember (length f) as n eqn:E. assert (L : (length f <= n)%nat) by lia. clear E. revert f L. induction n as [|n IH]; intros f L.
  - destruct f; [|cbn in L; lia]. exists []. split; [constructor|intros []].
  - destruct (first_of newline f) as [I|(b & r & -> & I)].
    + destruct (first_of nul f) as [H|(b & c & -> & H)].
      * destruct f as [|x f]; [exists []; split; [constructor|intros []]|]. exists (x :: f). split; [apply shown_last; auto; discriminate|exact H].
      * destruct b as [|x b]; [exists []; split; [apply shown_stop|intros []]|]. exists (x :: b). split; [|exact H].
        apply shown_last_cut; [intros B; apply I, in_or_app; left; exact B|exact H|discriminate|intros B; apply I, in_or_app; right; right; exact B].
    + destruct (IH r) as (r' & R1 & R2); [rewrite app_length in L; cbn [length] in L; lia|].
      assert (G : forall u, ~ In nul u -> ~ In nul (u ++ newline :: r')) by (intros u U B; apply in_app_iff in B as [B|[B|B]]; [auto|discriminate B|auto]).
      destruct (first_of nul b) as [H|(u & c & -> & H)].
      * exists (b ++ newline :: r'). split; [apply shown_line; auto|auto].
      * destruct u as [|x u]; [exists []; split; [apply shown_stop|intros []]|]. exists ((x :: u) ++ newline :: r'). split; [|auto].
        rewrite <- app_assoc. cbn [app]. apply (shown_cut (x :: u) c r r'); [intros B; apply I, in_or_app; left; exact B|exact H|discriminate|intros B; apply I, in_or_app; right; right; exact B|exact R1].
Qed.

(** ** White space at the end of a line *)
Lemma span_snoc p l c : p c = false -> span p (l ++ [c]) = (fst (span p l), snd (span p l) ++ [c]).
Proof.
  intros H. induction l as [|a l IH]; cbn [app span]; [rewrite H; reflexivity|].
  destruct (p a); [|reflexivity]. rewrite IH. destruct (span p l). reflexivity.
Qed.
Lemma skip_snoc l c : is_space c = true -> skip_space (l ++ [c]) = (if is_nil (skip_space l) then [] else skip_space l ++ [c]).
Proof.
  intros H. unfold skip_space. induction l as [|a l IH]; cbn [app span].
  - rewrite H. reflexivity.
  - destruct (is_space a); [|reflexivity]. destruct (span is_space (l ++ [c])), (span is_space l). cbn [snd] in *. exact IH.
Qed.
Lemma space_code c : is_space c = true -> is_digit c = false /\ (code c =? 101) = false /\ (code c =? 69) = false /\ c <> "."%char /\ c <> "-"%char /\ c <> "+"%char /\ c <> "#"%char.
Proof.
  unfold is_space, is_digit. intros H.
  assert (B : code c = 32 \/ 9 <= code c <= 13) by (destruct (Z.eqb_spec (code c) 32); [left; assumption|]; right; cbn [orb] in H; lia).
  repeat split; try lia; intros ->; vm_compute in B; destruct B as [B|[B1 B2]]; try discriminate B; try (apply B1; reflexivity); try (apply B2; reflexivity).
Qed.
Lemma sign_snoc l c : c <> "-"%char -> c <> "+"%char -> take_sign (l ++ [c]) = (fst (take_sign l), snd (take_sign l) ++ [c]).
Proof.
  intros H1 H2. destruct l as [|a l]; cbn [app].
  - unfold take_sign. destruct c as [[] [] [] [] [] [] [] []]; try reflexivity; contradiction.
  - unfold take_sign. destruct a as [[] [] [] [] [] [] [] []]; reflexivity.
Qed.
Lemma dot_match {A} l c (g : text -> A) (h : A) : c <> "."%char ->
  (match l ++ [c] with "."%char :: r => g r | _ => h end) = match l with "."%char :: r => g (r ++ [c]) | _ => h end.
Proof.
  intros H. destruct l as [|a l]; cbn [app].
  - destruct c as [[] [] [] [] [] [] [] []]; try reflexivity; contradiction.
  - destruct a as [[] [] [] [] [] [] [] []]; reflexivity.
Qed.
Lemma mantissa_snoc l c : is_digit c = false -> c <> "."%char ->
  take_mantissa (l ++ [c]) = (fst (take_mantissa l), snd (take_mantissa l) ++ [c]).
Proof.
  intros H1 H2. unfold take_mantissa. rewrite span_snoc by exact H1. destruct (span is_digit l) as [ip r1]. cbn [fst snd].
  rewrite dot_match by exact H2. destruct r1 as [|a r1]; [reflexivity|].
  destruct a as [[] [] [] [] [] [] [] []]; try reflexivity. rewrite span_snoc by exact H1. destruct (span is_digit r1). reflexivity.
Qed.
Lemma exponent_snoc l c : is_space c = true -> take_exponent (l ++ [c]) =
  match take_exponent l with Some (s, ed, r) => Some (s, ed, r ++ [c]) | None => None end.
Proof.
  intros H. destruct (space_code c H) as (D & E1 & E2 & _ & M & P & _). destruct l as [|a l]; cbn [app take_exponent].
  - rewrite E1, E2. reflexivity.
  - destruct ((code a =? 101) || (code a =? 69)); [|reflexivity]. rewrite sign_snoc by assumption.
    destruct (take_sign l) as [s r1]. cbn [fst snd]. rewrite span_snoc by exact D. destruct (span is_digit r1). reflexivity.
Qed.
Lemma float_snoc l c : is_space c = true -> istream_float (l ++ [c]) =
  match istream_float l with Some (n, r) => Some (n, r ++ [c]) | None => None end.
Proof.
  intros H. destruct (space_code c H) as (D & E1 & E2 & Dt & M & P & _). unfold istream_float. rewrite skip_snoc by exact H.
  destruct (skip_space l) as [|a r] eqn:E; [reflexivity|]. cbn [is_nil]. rewrite sign_snoc by assumption.
  destruct (take_sign (a :: r)) as [neg r0]. cbn [fst snd]. rewrite mantissa_snoc by assumption.
  destruct (take_mantissa r0) as [[ip fp] r1]. cbn [fst snd]. destruct (is_nil (ip ++ fp)); [reflexivity|].
  rewrite exponent_snoc by exact H. destruct (take_exponent r1) as [[[s ed] r2]|]; [|reflexivity]. destruct (is_nil ed); reflexivity.
Qed.
Lemma before_snoc c0 l c : before c0 (l ++ [c]) = before c0 l \/ before c0 (l ++ [c]) = before c0 l ++ [c].
Proof.
  unfold before. induction l as [|a l IH]; cbn [app span].
  - destruct (negb (Ascii.eqb c c0)); [right|left]; reflexivity.
  - destruct (negb (Ascii.eqb a c0)); [|left; reflexivity]. destruct (span _ (l ++ [c])), (span _ l). cbn [fst] in *.
    destruct IH as [->| ->]; [left|right]; reflexivity.
Qed.

Section Loading.
Context {V : Type} (F : fmt V).
Lemma parse_line_other line st : line <> [] -> (forall r, line <> "#"%char :: r) -> parse_line F line st =
    match istream_float (before "#" line) with
    | None => Err RuntimeError
    | Some (yn, rest) =>
      match rd_label F yn with
      | None => Err RuntimeError
      | Some y =>
        match words rest with
        | [] => Err RuntimeError
        | tok :: toks =>
          let '(qids, feats) := match scan_qid tok with
                                | Some q => (l_qids st ++ [q], toks)
                                | None => (l_qids st, tok :: toks)
                                end in
          do s <- foldM (feature_step F) feats (l_data st, 1);
          let '(data, next) := s in
          let max := l_max st in
          let data1 := data ++ repeat (vzero F) (Z.to_nat (max + 1 - next)) in
          let next1 := Z.max next (max + 1) in
          do data2 <- (if (0 <? max) && (max <? next1 - 1)
                       then reshape_data F data1 max (next1 - 1) else Ok data1);
          Ok (mkL data2 (l_labels st ++ [y]) qids (Z.max (next1 - 1) max))
        end
      end
    end.
Proof.
  intros H1 H2. destruct line as [|a r]; [destruct (H1 eq_refl)|]. unfold parse_line.
  destruct a as [[] [] [] [] [] [] [] []]; try reflexivity. destruct (H2 r eq_refl).
Qed.
Lemma parse_snoc line c st : is_space c = true -> line <> [] -> parse_line F (line ++ [c]) st = parse_line F line st.
Proof.
  intros H N. destruct (space_code c H) as (_ & _ & _ & _ & _ & _ & Sh).
  destruct (list_eq_dec ascii_dec (firstn 1 line) ["#"%char]) as [E|E].
  - destruct line as [|a r]; [discriminate E|]. cbn [firstn] in E. injection E as ->. reflexivity.
  - rewrite !parse_line_other.
    + destruct (before_snoc "#" line c) as [-> | ->]; [reflexivity|]. rewrite float_snoc by exact H.
      destruct (istream_float (before "#" line)) as [[n r]|]; [|reflexivity]. rewrite words_blank by exact H. reflexivity.
    + exact N.
    + intros r ->. apply E. reflexivity.
    + destruct line; discriminate.
    + intros r Er. destruct line as [|a l]; [destruct (N eq_refl)|]. cbn [app] in Er. injection Er as -> _. apply E. reflexivity.
Qed.
Lemma parse_blanks line w st : Forall (fun c => is_space c = true) w -> line <> [] -> parse_line F (line ++ w) st = parse_line F line st.
Proof.
  intros H N. revert line N. induction H as [|c w Hc _ IH]; intros line N; [rewrite app_nil_r; reflexivity|].
  replace (line ++ c :: w) with ((line ++ [c]) ++ w) by (rewrite <- app_assoc; reflexivity).
  rewrite IH by (destruct line; discriminate). apply parse_snoc; assumption.
Qed.

(** ** Files *)
Definition alike (a b : list text) : Prop := forall st, parse_lines F a st = parse_lines F b st.
Lemma alike_app l a b : alike a b -> alike (l ++ a) (l ++ b).
Proof.
  intros H. induction l as [|x l IH]; [exact H|]. intros st. cbn [app parse_lines]. destruct (is_nil (c_string x)); [reflexivity|].
  destruct (parse_line F (c_string x) st); [apply IH|reflexivity].
Qed.
Lemma load_alike f g : alike (file_lines f) (file_lines g) -> load_svmlight_file F f = load_svmlight_file F g.
Proof. intros H. unfold load_svmlight_file, parse_file. rewrite H. reflexivity. Qed.
Lemma alike_line l l' a b : (is_nil (c_string l) = is_nil (c_string l')) ->
  (is_nil (c_string l) = false -> forall st, parse_line F (c_string l) st = parse_line F (c_string l') st) -> alike a b -> alike (l :: a) (l' :: b).
Proof.
  intros H1 H2 H st. cbn [parse_lines]. rewrite <- H1. destruct (is_nil (c_string l)); [reflexivity|].
  rewrite H2 by reflexivity. destruct (parse_line F (c_string l') st); [apply H|reflexivity].
Qed.
Lemma cut_here b c : ~ In nul b -> c_string (b ++ nul :: c) = b.
Proof. intros H. unfold c_string. apply before_app; [exact H|right; eauto]. Qed.
Lemma no_nul b : ~ In nul b -> c_string b = b.
Proof. apply before_none. Qed.
Lemma no_nul_line b : ~ In nul b -> c_string (b ++ [newline]) = b ++ [newline].
Proof. intros H. apply before_none. rewrite in_app_iff. intros [B|[B|[]]]; [auto|discriminate B]. Qed.
Lemma cut_line b c : ~ In nul b -> b <> [] -> forall a a', alike a a' -> alike ((b ++ nul :: c) :: a) ((b ++ [newline]) :: a').
Proof.
  intros H N a a' A. apply alike_line; [| |exact A].
  - rewrite cut_here, no_nul_line by exact H. destruct b; [destruct (N eq_refl)|reflexivity].
  - intros _ st. rewrite cut_here, no_nul_line by exact H. symmetry. apply parse_snoc; [reflexivity|exact N].
Qed.
Lemma shown_alike f g : shown f g -> alike (file_lines f) (file_lines g).
Proof.
  induction 1 as [|x|b I H N|b c I H N J|b r r' I H _ IH|b c r r' I H N J _ IH].
  - intros st. reflexivity.
  - destruct (lines_nul x) as (l & r & ->). intros st. reflexivity.
  - intros st. reflexivity.
  - rewrite (lines_one b I N), (lines_one (b ++ nul :: c) (inside_nul b c I J)) by (destruct b; discriminate).
    apply alike_line; [| |intros st; reflexivity].
    + rewrite cut_here, no_nul by exact H. reflexivity.
    + intros _ st. rewrite cut_here, no_nul by exact H. reflexivity.
  - rewrite !lines_inside by exact I. apply (alike_app [b ++ [newline]]). exact IH.
  - replace (b ++ nul :: c ++ newline :: r) with ((b ++ nul :: c) ++ newline :: r) by (rewrite <- app_assoc; reflexivity).
    rewrite (lines_inside b r' I), (lines_inside _ r (inside_nul b c I J)).
    rewrite <- app_assoc. cbn [app]. apply cut_line; assumption.
Qed.
Theorem C100_shown_lemma f g : shown f g -> load_svmlight_file F f = load_svmlight_file F g /\ ds_load F f = ds_load F g.
Proof. intros H. pose proof (load_alike f g (shown_alike f g H)) as E. split; [exact E|]. unfold ds_load. rewrite E. reflexivity. Qed.
Theorem C100_trailing_lemma a b w r : whole_lines a -> inside b -> b <> [] -> inside w -> blanks w ->
  load_svmlight_file F (a ++ b ++ w ++ newline :: r) = load_svmlight_file F (a ++ b ++ newline :: r).
Proof.
  intros A I N J B. apply load_alike. rewrite !(lines_app a _ A). apply alike_app.
  replace (b ++ w ++ newline :: r) with ((b ++ w) ++ newline :: r) by (rewrite <- app_assoc; reflexivity).
  rewrite (lines_inside b r I), (lines_inside _ r (inside_app b w I J)).
  destruct (in_dec ascii_dec nul b) as [Hn|Hn].
  - apply in_split in Hn as (b1 & b2 & Eb).
    assert (exists b1 b2, b = b1 ++ nul :: b2 /\ ~ In nul b1) as (u & v & -> & Nu).
    { clear - Eb. subst b. induction b1 as [|x b1 IH]; [exists [], b2; auto|]. destruct IH as (u & v & E & Nu).
      destruct (ascii_dec x nul) as [->|D]; [exists [], (b1 ++ nul :: b2); auto|]. exists (x :: u), v. cbn [app]. rewrite E.
      split; [reflexivity|]. intros [D'|D']; auto. }
    rewrite <- !app_assoc. cbn [app]. apply alike_line; [| |intros st; reflexivity]; [|intros _ st]; rewrite !cut_here by exact Nu; reflexivity.
  - apply alike_line; [| |intros st; reflexivity].
    + rewrite <- app_assoc. unfold c_string, before. destruct b as [|x b]; [destruct (N eq_refl)|]. cbn [app span].
      destruct (negb (Ascii.eqb x nul)); [|reflexivity]. destruct (span _ (b ++ w ++ [newline])), (span _ (b ++ [newline])). reflexivity.
    + intros _ st. assert (W : ~ In nul w). { intros X. apply (proj1 (Forall_forall _ _) B) in X. apply is_space_iff in X. discriminate X. }
      rewrite !no_nul_line by (try assumption; rewrite in_app_iff; tauto). rewrite <- app_assoc.
      assert (SP : Forall (fun c => is_space c = true) (w ++ [newline])).
      { apply Forall_app. split; [|repeat constructor]. eapply Forall_impl; [|exact B]. intros c. apply is_space_iff. }
      rewrite !parse_blanks by (try exact N; try exact SP; repeat constructor). reflexivity.
Qed.
Theorem C100_last_newline_lemma a b : whole_lines a -> inside b -> b <> [] ->
  load_svmlight_file F (a ++ b ++ [newline]) = load_svmlight_file F (a ++ b).
Proof.
  intros A I N. apply load_alike. rewrite !(lines_app a _ A). apply alike_app.
  rewrite lines_inside, (lines_one b) by assumption. change (file_lines []) with (@nil text).
  destruct b as [|x b]; [destruct (N eq_refl)|]. destruct (ascii_dec x nul) as [->|D]; [intros st; reflexivity|].
  destruct (in_dec ascii_dec nul (x :: b)) as [Hn|Hn].
  - apply in_split in Hn as (b1 & b2 & Eb).
    assert (exists b1 b2, x :: b = b1 ++ nul :: b2 /\ ~ In nul b1) as (u & v & E & Nu).
    { clear - Eb. rewrite Eb. clear Eb. induction b1 as [|z b1 IH]; [exists [], b2; auto|]. destruct IH as (u & v & E & Nu).
      destruct (ascii_dec z nul) as [->|D]; [exists [], (b1 ++ nul :: b2); auto|]. exists (z :: u), v. cbn [app]. rewrite E.
      split; [reflexivity|]. intros [D'|D']; auto. }
    rewrite E, <- app_assoc. cbn [app]. apply alike_line; [| |intros st; reflexivity]; [|intros _ st]; rewrite !cut_here by exact Nu; reflexivity.
  - apply alike_line; [| |intros st; reflexivity]; [|intros _ st]; rewrite no_nul_line, no_nul by exact Hn; [reflexivity|]. apply parse_snoc; [reflexivity|discriminate].
Qed.
End Loading.
