(** Proofs: loading the beginning of a dumped data file. *)
From Coq Require Import Ascii String List ZArith Lia Bool.
From Verif Require Import Base Lists M_Text S_Svmlight L_Text M_Svmlight L_Svmlight L_Svmlight2 L_Svmlight3 S_Cut.
Import ListNotations.
Local Open Scope Z_scope.

Lemma begins_app {A} (p a b : list A) : begins p (a ++ b) -> begins p a /\ p <> a \/ exists p', p = a ++ p' /\ begins p' b.
Proof.
  revert p. induction a as [|x a IH]; intros p (r & E).
  - right. exists p. split; [reflexivity|]. exists r. exact E.
  - destruct p as [|z p].
    + left. split; [exists (x :: a); reflexivity|discriminate].
    + cbn [app] in E. injection E as <- E. destruct (IH p (ex_intro _ r E)) as [((r' & ->) & N)|(p' & -> & B)].
      * left. split; [exists r'; reflexivity|]. intros C. apply N. injection C. auto.
      * right. exists p'. split; [reflexivity|exact B].
Qed.
Lemma begins_nil {A} (p : list A) : begins p [] -> p = [].
Proof. intros (r & E). symmetry in E. apply app_eq_nil in E. tauto. Qed.
Lemma begins_one {A} (p : list A) c : begins p [c] -> p = [] \/ p = [c].
Proof. intros (r & E). destruct p as [|x p]; [auto|]. injection E as <- E. symmetry in E. apply app_eq_nil in E as [-> _]. auto. Qed.
Lemma begins_Forall {A} (P : A -> Prop) p t : begins p t -> Forall P t -> Forall P p.
Proof. intros (r & ->) H. apply Forall_app in H. tauto. Qed.

(** ** Numerals *)
Lemma no_number_sign sg neg r : sign_text sg neg -> stops is_sign r -> ~ (exists c r', r = c :: r' /\ digit_char c) -> ~ (exists c r', r = "."%char :: c :: r' /\ digit_char c) -> no_number (sg ++ r).
Proof.
  intros S R N1 N2 sg' neg' r' S' E.
  assert (r' = r \/ (sg' = [] /\ exists c, r' = c :: r /\ (c = "+" \/ c = "-")%char)) as [->|(-> & c & -> & C)].
  { destruct S; destruct S'; cbn [app lit list_ascii_of_string] in E; subst; try (left; reflexivity); try (cbn in R; discriminate R); try discriminate E;
      try (injection E as ->; left; reflexivity); right; (split; [reflexivity|]); eexists; (split; [reflexivity|]); auto. }
  - auto.
  - split; intros (x & y & Q & D).
    + injection Q as <- _. destruct C as [-> | ->]; cbn in D; intuition discriminate.
    + injection Q as Q _. destruct C as [-> | ->]; discriminate.
Qed.
(** The beginning of a numeral is one, or no number, or stops after the e. *)
Lemma numeral_begins t n p : numeral t n -> begins p t ->
  (exists n', numeral p n') \/ no_number p \/
  exists sg neg ip dot fp c sg' neg', sign_text sg neg /\ digits ip /\ digits fp /\ ip ++ fp <> [] /\ (dot = lit "." \/ dot = [] /\ fp = []) /\
    In c (lit "eE") /\ sign_text sg' neg' /\ p = sg ++ ip ++ dot ++ fp ++ c :: sg'.
Proof.
  intros H B. destruct H as [sg neg ip dot fp ex e Hs Hi Hf Hn Hd He].
  assert (none : forall sg neg, sign_text sg neg -> no_number sg).
  { intros s b S. rewrite <- (app_nil_r s). apply (no_number_sign s b []); [exact S|exact I|intros (? & ? & ? & _); discriminate..]. }
  apply begins_app in B as [(B & _)|(p1 & -> & B)].
  { right. left. destruct Hs; [apply begins_nil in B; subst; apply (none _ _ sign_none)| |];
      (apply begins_one in B; destruct B as [-> | ->]; [apply (none _ _ sign_none)|]); [apply (none _ _ sign_plus)|apply (none _ _ sign_minus)]. }
  apply begins_app in B as [(B & NE)|(p2 & -> & B)].
  { destruct p1 as [|c p1]; [right; left; rewrite app_nil_r; eapply none; eassumption|]. left. eexists.
    replace (sg ++ c :: p1) with (sg ++ (c :: p1) ++ [] ++ [] ++ []) by (rewrite !app_nil_r; reflexivity).
    apply numeral_intro; [exact Hs|exact (begins_Forall _ _ _ B Hi)|constructor|discriminate|auto|constructor]. }
  apply begins_app in B as [(B & NE)|(p3 & -> & B)].
  { assert (p2 = []) as -> by (destruct Hd as [-> |(-> & _)]; [apply begins_one in B; destruct B as [-> | ->]; [reflexivity|exfalso; apply NE; reflexivity]|apply begins_nil in B; exact B]).
    rewrite app_nil_r. destruct ip as [|c ip]; [right; left; rewrite app_nil_r; eapply none; eassumption|]. left. eexists.
    replace (sg ++ c :: ip) with (sg ++ (c :: ip) ++ [] ++ [] ++ []) by (rewrite !app_nil_r; reflexivity).
    apply numeral_intro; [exact Hs|exact Hi|constructor|discriminate|auto|constructor]. }
  apply begins_app in B as [(B & NE)|(p4 & -> & B)].
  { destruct Hd as [-> |(-> & ->)]; [|apply begins_nil in B; exfalso; apply NE; exact B].
    destruct (ip ++ p3) as [|c m] eqn:E.
    - apply app_eq_nil in E as [-> ->]. right. left. cbn [app]. apply (no_number_sign sg neg _ Hs); [reflexivity| |]; intros (x & y & Q & D).
      + injection Q as <- _. cbn in D. intuition discriminate.
      + discriminate.
    - left. eexists. replace (sg ++ ip ++ lit "." ++ p3) with (sg ++ ip ++ lit "." ++ p3 ++ []) by (rewrite !app_nil_r; reflexivity).
      apply numeral_intro; [exact Hs|exact Hi|exact (begins_Forall _ _ _ B Hf)|rewrite E; discriminate|auto|constructor]. }
  destruct He as [|c sg' neg' ds Hc Hs' Hds Hne].
  { apply begins_nil in B as ->. left. eexists. apply numeral_intro; [exact Hs|exact Hi|exact Hf|exact Hn|exact Hd|constructor]. }
  destruct p4 as [|c' p4].
  { left. eexists. apply numeral_intro; [exact Hs|exact Hi|exact Hf|exact Hn|exact Hd|constructor]. }
  destruct B as (r & E). cbn [app] in E. injection E as <- E. assert (B : begins p4 (sg' ++ ds)) by (exists r; exact E).
  apply begins_app in B as [(B & _)|(p5 & -> & B)].
  { right. right. exists sg, neg, ip, dot, fp, c, p4. assert (X : exists b, sign_text p4 b).
    { destruct Hs'; [apply begins_nil in B; subst; exists false; constructor| |];
        (apply begins_one in B; destruct B as [-> | ->]; [exists false; constructor|]); [exists false; constructor|exists true; constructor]. }
    destruct X as (b & X). exists b. auto 10. }
  destruct p5 as [|x p5].
  { right. right. exists sg, neg, ip, dot, fp, c, sg', neg'. rewrite app_nil_r. auto 10. }
  left. eexists. apply numeral_intro; [exact Hs|exact Hi|exact Hf|exact Hn|exact Hd|]. apply (exp_some c sg' neg' (x :: p5)); [exact Hc|exact Hs'|exact (begins_Forall _ _ _ B Hds)|discriminate].
Qed.
(** Reading the beginning of a label leaves nothing for the next word. *)
Lemma cut_label t n p : numeral t n -> begins p t -> istream_float p = None \/ exists n', istream_float p = Some (n', []).
Proof.
  intros H B. destruct (numeral_begins t n p H B) as [(n' & N)|[N|(sg & neg & ip & dot & fp & c & sg' & neg' & S & I & Fp & NE & D & C & S' & ->)]].
  - right. exists n'. rewrite <- (app_nil_r p). apply (istream_float_numeral [] p n' []); [constructor|exact N|repeat split].
  - left. apply (istream_none [] p); [constructor| |exact N]. intros c r ->. pose proof (begins_Forall _ _ _ B (numeral_not_blank _ _ H)) as X. inversion X; assumption.
  - left. pose proof (istream_exponent [] sg neg ip dot fp c sg' neg' [] ltac:(constructor) S I Fp NE D C S' ltac:(intros ? ? E; discriminate E)) as X.
    cbn [app] in X. rewrite app_nil_r in X. exact X.
Qed.

Section Cut.
Context {V : Type} (F : fmt V) (num : V -> numtok).
Notation cell_prints := (cell_prints F num).
Notation label_prints := (label_prints F num).
Definition pair_text (p : nat * V) : text := show_Z (Z.of_nat (fst p)) ++ lit ":" ++ show F (snd p).
Definition row_text (first : nat) (row : list V) : text :=
  flat_map (fun p : nat * V => show_Z (Z.of_nat (fst p)) ++ lit ":" ++ show F (snd p) ++ lit " ") (combine (seq first (length row)) row).
Lemma row_text_cons first v row : row_text first (v :: row) = pair_text (first, v) ++ lit " " ++ row_text (S first) row.
Proof. unfold row_text, pair_text. cbn [length seq combine flat_map fst snd]. rewrite <- !app_assoc. reflexivity. Qed.

(** ** The cells *)
Lemma pair_word first v : Z.of_nat first < 2 ^ 31 -> cell_prints v -> word (pair_text (first, v)).
Proof.
  intros B (P & _). pose proof (show_Z_natural (Z.of_nat first) ltac:(lia)) as N. unfold pair_text. cbn [fst snd]. apply word_of_digits; [apply N|apply N|].
  apply Forall_app. split; [apply not_blank_lit; reflexivity|eapply numeral_not_blank; exact P].
Qed.
Lemma pair_step first next v data : Z.of_nat first < 2 ^ 31 -> cell_prints v -> (first <= next)%nat ->
  feature_step F (data, Z.of_nat next) (pair_text (first, v)) = Ok (data ++ [v], Z.of_nat (S next)).
Proof.
  intros B (P & R & _) L. unfold feature_step, pair_text. cbn [fst snd]. rewrite (scan_pair_ok _ (Z.of_nat first) _ (num v)); [|apply show_Z_natural; lia|exact P].
  rewrite R. replace (Z.to_nat (Z.of_nat first - Z.of_nat next)) with 0%nat by lia. cbn [repeat app]. f_equal. f_equal. lia.
Qed.
Lemma full_row row : forall first next data rest, Forall cell_prints row -> Z.of_nat (first + length row) < 2 ^ 31 -> (first <= next)%nat ->
  foldM (feature_step F) (words (row_text first row ++ rest)) (data, Z.of_nat next) =
  foldM (feature_step F) (words rest) (data ++ row, Z.of_nat (next + length row)).
Proof.
  induction row as [|v row IH]; intros first next data rest P B L.
  - cbn [row_text length seq combine flat_map app]. rewrite app_nil_r, Nat.add_0_r. reflexivity.
  - inversion P as [|? ? Pv P']; subst. cbn [length] in B |- *. rewrite row_text_cons, <- !app_assoc. rewrite words_tok; [|apply pair_word; [lia|exact Pv]|reflexivity].
    rewrite words_blanks by apply space_blanks. cbn [foldM]. rewrite pair_step by (lia || exact Pv). cbn [bind].
    rewrite IH by (lia || exact P'). rewrite <- app_assoc. cbn [app]. f_equal. f_equal. lia.
Qed.
Definition partly (row : list V) (j : nat) (c : list V) : Prop :=
  c = [] \/ exists v t n, nth_error row j = Some v /\ begins t (show F v) /\ scan_double t = Some n /\ c = [rd_value F n].
Lemma cut_pair first next v p data : Z.of_nat first < 2 ^ 31 -> cell_prints v -> (first <= next)%nat -> begins p (pair_text (first, v)) ->
  foldM (feature_step F) (words p) (data, Z.of_nat next) = Err RuntimeError \/
  p = [] \/ exists t n, begins t (show F v) /\ scan_double t = Some n /\ foldM (feature_step F) (words p) (data, Z.of_nat next) = Ok (data ++ [rd_value F n], Z.of_nat (S next)).
Proof.
  intros B P L H. destruct p as [|c p0]; [auto|]. set (p := c :: p0) in *.
  pose proof (show_Z_natural (Z.of_nat first) ltac:(lia)) as N. pose proof N as (ND & _).
  assert (W : word p). { split; [discriminate|]. exact (begins_Forall _ _ _ H (proj2 (pair_word first v B P))). }
  assert (E : words p = [p]). { rewrite <- (app_nil_r p) at 1. rewrite words_tok; [reflexivity|exact W|exact I]. }
  rewrite E. cbn [foldM].
  assert (X : scan_pair p = None \/ exists t n, begins t (show F v) /\ scan_double t = Some n /\ scan_pair p = Some (Z.of_nat first, n)).
  { unfold pair_text in H. cbn [fst snd] in H. apply begins_app in H as [(H & _)|(p1 & -> & H)].
    - left. apply bad_pair_none; [exact W|]. left. intros sg neg ds r S D NE Q.
      pose proof (begins_Forall _ _ _ H ND) as A. rewrite Q in A. apply Forall_app in A as [_ A]. apply Forall_app in A as [_ A]. inversion A as [|? ? A1 _]; subst. cbn in A1. intuition discriminate.
    - apply begins_app in H as [(H & NE)|(t & -> & H)].
      + apply begins_one in H as [-> |H]; [|exfalso; apply NE; exact H]. left. apply bad_pair_none; [exact W|]. rewrite app_nil_r. left. intros sg neg ds r S D NE' Q.
        pose proof ND as A. unfold digits in A. rewrite Q in A. apply Forall_app in A as [_ A]. apply Forall_app in A as [_ A]. inversion A as [|? ? A1 _]; subst. cbn in A1. intuition discriminate.
      + unfold scan_pair. rewrite (scan_uint_natural _ _ _ N) by reflexivity. cbn [lit list_ascii_of_string app].
        destruct (scan_double t) as [n|] eqn:Q; [right; exists t, n; auto|left; reflexivity]. }
  destruct X as [X|(t & n & B' & S & X)].
  - left. unfold feature_step. rewrite X. reflexivity.
  - right. right. exists t, n. split; [exact B'|]. split; [exact S|]. unfold feature_step. rewrite X. cbn [bind].
    replace (Z.to_nat (Z.of_nat first - Z.of_nat next)) with 0%nat by lia. cbn [repeat app]. f_equal. f_equal. lia.
Qed.
Lemma cut_row row : forall first next data p, Forall cell_prints row -> Z.of_nat (first + length row) < 2 ^ 31 -> (first <= next)%nat ->
  begins p (row_text first row ++ [newline]) ->
  foldM (feature_step F) (words p) (data, Z.of_nat next) = Err RuntimeError \/
  exists j c, (j <= length row)%nat /\ partly row j c /\
    foldM (feature_step F) (words p) (data, Z.of_nat next) = Ok (data ++ firstn j row ++ c, Z.of_nat (next + j + length c)).
Proof.
  induction row as [|v row IH]; intros first next data p P B L H.
  - right. exists 0%nat, []. split; [lia|]. split; [left; reflexivity|]. cbn [row_text length seq combine flat_map app] in H.
    assert (words p = []) as ->. { apply begins_one in H as [-> | ->]; [reflexivity|]. apply words_nil. constructor; [right; right; left; reflexivity|constructor]. }
    cbn [foldM firstn app length]. rewrite app_nil_r, !Nat.add_0_r. reflexivity.
  - inversion P as [|? ? Pv P']; subst. cbn [length] in B |- *. rewrite row_text_cons, <- !app_assoc in H. rewrite app_assoc in H.
    assert (C : begins p (pair_text (first, v)) \/ exists p', p = pair_text (first, v) ++ lit " " ++ p' /\ begins p' (row_text (S first) row ++ [newline])).
    { apply begins_app in H as [(H & NE)|(p' & -> & H)]; [|right; exists p'; rewrite <- app_assoc; auto].
      left. apply begins_app in H as [(H & _)|(p' & -> & H)]; [exact H|]. apply begins_one in H as [-> | ->]; [|exfalso; apply NE; reflexivity]. rewrite app_nil_r. exists []. rewrite app_nil_r. reflexivity. }
    destruct C as [C|(p' & -> & C)].
    + destruct (cut_pair first next v p data ltac:(lia) Pv L C) as [E|[-> |(t & n & B1 & S1 & E)]]; [left; exact E| |].
      * right. exists 0%nat, []. split; [lia|]. split; [left; reflexivity|]. cbn [words words_from is_nil foldM firstn app length]. rewrite app_nil_r, !Nat.add_0_r. reflexivity.
      * right. exists 0%nat, [rd_value F n]. split; [lia|]. split; [right; exists v, t, n; auto|]. rewrite E. cbn [firstn app length]. do 2 f_equal. lia.
    + rewrite words_tok; [|apply pair_word; [lia|exact Pv]|reflexivity].
      rewrite words_blanks by apply space_blanks. cbn [foldM]. rewrite pair_step by (lia || exact Pv). cbn [bind].
      destruct (IH (S first) (S next) (data ++ [v]) p' P' ltac:(lia) ltac:(lia) C) as [E|(j & c & J & Q & E)]; [left; exact E|].
      right. exists (S j), c. split; [lia|]. split; [exact Q|]. rewrite E. cbn [firstn app]. rewrite <- app_assoc. cbn [app]. do 2 f_equal. lia.
Qed.

(** ** A line *)
Definition head (q : Z) (y : V) : text := show F y ++ lit " qid:" ++ show_Z q ++ lit " ".
Lemma line_parts first q y row : line_text F first (Some q) y row = head q y ++ row_text first row ++ [newline].
Proof. unfold line_text, head_text, head, row_text. rewrite <- !app_assoc. reflexivity. Qed.
Definition finish (st : lstate (V:=V)) (y : V) (q : Z) (s : list V * Z) : res (lstate (V:=V)) :=
  let '(data, next) := s in
  let max := l_max st in
  let data1 := data ++ repeat (vzero F) (Z.to_nat (max + 1 - next)) in
  let next1 := Z.max next (max + 1) in
  do data2 <- (if (0 <? max) && (max <? next1 - 1) then reshape_data F data1 max (next1 - 1) else Ok data1);
  Ok (mkL data2 (l_labels st ++ [y]) (l_qids st ++ [q]) (Z.max (next1 - 1) max)).
Lemma numeral_start t n r : numeral t n -> t ++ r <> [] /\ ~ comment_line (t ++ r).
Proof.
  intros H. destruct (comment_head_blanks [] t n r ltac:(constructor) H) as (A & B). auto.
Qed.
Lemma parse_after_label y r st : label_prints y -> Forall plain r -> after_number r ->
  parse_line F (show F y ++ r) st =
  match words r with
  | [] => Err RuntimeError
  | tok :: toks =>
      let '(qids, feats) := match scan_qid tok with Some q => (l_qids st ++ [q], toks) | None => (l_qids st, tok :: toks) end in
      do s <- foldM (feature_step F) feats (l_data st, 1);
      let '(data, next) := s in
      let max := l_max st in
      let data1 := data ++ repeat (vzero F) (Z.to_nat (max + 1 - next)) in
      let next1 := Z.max next (max + 1) in
      do data2 <- (if (0 <? max) && (max <? next1 - 1) then reshape_data F data1 max (next1 - 1) else Ok data1);
      Ok (mkL data2 (l_labels st ++ [y]) qids (Z.max (next1 - 1) max))
  end.
Proof.
  intros (P & R) H A. destruct (numeral_start _ _ r P) as (N1 & N2). rewrite parse_line_eq by assumption. cbv zeta.
  rewrite before_none by (apply plain_no_hash, Forall_app; split; [eapply numeral_plain; exact P|exact H]).
  pose proof (istream_float_numeral [] _ _ r ltac:(constructor) P A) as X. cbn [app] in X. rewrite X, R. reflexivity.
Qed.
Lemma parse_head q y t st : label_prints y -> - 2 ^ 31 <= q < 2 ^ 31 -> Forall plain t ->
  parse_line F (head q y ++ t) st = do s <- foldM (feature_step F) (words t) (l_data st, 1); finish st y q s.
Proof.
  intros P Q H. pose proof (show_Z_int q Q) as I. unfold head. rewrite <- !app_assoc. rewrite parse_after_label.
  - change (lit " qid:" ++ show_Z q ++ lit " " ++ t) with (lit " " ++ (lit "qid:" ++ show_Z q ++ lit " " ++ t)). rewrite words_blanks by apply space_blanks.
    rewrite (app_assoc (lit "qid:")). rewrite words_tok; [|split; [discriminate|]|reflexivity].
    + rewrite words_blanks by apply space_blanks. rewrite (scan_qid_ok _ q I). reflexivity.
    + apply Forall_app. split; [apply not_blank_lit; reflexivity|]. destruct I as (sg & neg & ds & -> & Hs & Hd & _). apply Forall_app. split; [eapply sign_not_blank; exact Hs|apply digits_not_blank, Hd].
  - exact P.
  - repeat (apply Forall_app; split); [repeat constructor; discriminate|eapply int_plain; exact I|repeat constructor; discriminate|exact H].
  - repeat split.
Qed.
End Cut.
