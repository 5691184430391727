(** Proofs about the text of the drawings: labels, whole files and files of failed calls. *)
From Coq Require Import Ascii String List ZArith Bool Lia.
From Verif Require Import Base Num M_Text M_Ensemble M_Graphviz M_Dot S_Svmlight S_Loaders S_Ensemble S_Graphviz S_Dot L_Fixed L_Loaders L_Dot L_Dot2 L_Dot3 L_Graphviz3.
Import ListNotations.
Local Open Scope Z_scope.

(** ** Labels *)
Definition PL (cur : list glyph) (t : text) (l : list (list glyph)) : Prop := forall f, (length t < f)%nat -> plain_lines f cur t = Some l.
Definition HL (sub : bool) (cur : list glyph) (t : text) (l : list (list glyph)) : Prop := forall f, (length t < f)%nat -> html_lines f sub cur t = Some l.
Lemma PL_end cur : PL cur [] [rev cur].
Proof. intros [|f] H; [cbn in H; lia|reflexivity]. Qed.
Lemma HL_end sub cur : HL sub cur [] [rev cur].
Proof. intros [|f] H; [cbn in H; lia|reflexivity]. Qed.
Lemma low_code c : 32 <= code c -> (code c =? 10) = false.
Proof. intros H. apply Z.eqb_neq. lia. Qed.
Lemma PL_harmless : forall a cur t l, Forall (harmless false) a -> PL (rev (plain a) ++ cur) t l -> PL cur (a ++ t) l.
Proof.
  induction a as [|c a IH]; intros cur t l H P; [exact P|]. inversion H as [|? ? C H']; subst. intros [|f] L; [cbn in L; lia|]. cbn [app plain_lines]. cbn [app length] in L.
  destruct C as (C1 & C2 & C3 & C4). apply code_ne in C2, C4. rewrite (low_code c C1). change 92 with (code "\"). rewrite C4. change 38 with (code "&"). rewrite C2. apply (IH (Glyph false c :: cur) t l H'); [|lia].
  cbn [plain map rev] in P |- *. rewrite <- app_assoc in P. exact P.
Qed.
Lemma HL_harmless : forall a sub cur t l, Forall (harmless true) a -> HL sub (rev (map (Glyph sub) a) ++ cur) t l -> HL sub cur (a ++ t) l.
Proof.
  induction a as [|c a IH]; intros sub cur t l H P; [exact P|]. inversion H as [|? ? C H']; subst. intros [|f] L; [cbn in L; lia|]. cbn [app html_lines]. cbn [app length] in L.
  destruct C as (C1 & C2 & C3 & C4). apply code_ne in C2, C3, C4. change 60 with (code "<"). rewrite C3. change 62 with (code ">"). rewrite C4. change 38 with (code "&"). rewrite C2. apply (IH sub (Glyph sub c :: cur) t l H'); [|lia].
  cbn [map rev] in P |- *. rewrite <- app_assoc in P. exact P.
Qed.
Lemma PL_break cur t l : PL [] t l -> PL cur (lit "\n" ++ t) (rev cur :: l).
Proof.
  intros P [|f] L; [cbn in L; lia|]. cbn [app lit list_ascii_of_string] in *. cbn [length] in L. cbn [plain_lines]. change (code "\" =? 92) with true. cbn match. change (existsb (Ascii.eqb "n") ["n"; "l"; "r"]%char) with true. cbn match. rewrite (P f) by lia. reflexivity.
Qed.
Lemma strip_app : forall p t, strip_prefix p (p ++ t) = Some t.
Proof. induction p as [|c p IH]; intros t; cbn [app strip_prefix]; [reflexivity|]. rewrite Ascii.eqb_refl. apply IH. Qed.
Lemma HL_break sub cur t l : HL sub [] t l -> HL sub cur (lit "<br/>" ++ t) (rev cur :: l).
Proof. intros P [|f] L; [cbn in L; lia|]. rewrite app_length in L. transitivity (match html_lines f sub [] t with Some l => Some (rev cur :: l) | None => None end); [reflexivity|]. rewrite (P f) by (cbn [length lit list_ascii_of_string] in L; lia). reflexivity. Qed.
Lemma HL_hash sub cur t l : HL sub (Glyph false "#" :: cur) t l -> HL sub cur (lit "&#35;" ++ t) l.
Proof. intros P [|f] L; [cbn in L; lia|]. rewrite app_length in L. transitivity (html_lines f sub (Glyph false "#" :: cur) t); [reflexivity|]. apply P. cbn [length lit list_ascii_of_string] in L; lia. Qed.
Lemma HL_percent sub cur t l : HL sub (Glyph false "%" :: cur) t l -> HL sub cur (lit "&#37;" ++ t) l.
Proof. intros P [|f] L; [cbn in L; lia|]. rewrite app_length in L. transitivity (html_lines f sub (Glyph false "%" :: cur) t); [reflexivity|]. apply P. cbn [length lit list_ascii_of_string] in L; lia. Qed.
Lemma HL_le sub cur t l : HL sub (LessEq :: cur) t l -> HL sub cur (lit "&le;" ++ t) l.
Proof. intros P [|f] L; [cbn in L; lia|]. rewrite app_length in L. transitivity (html_lines f sub (LessEq :: cur) t); [reflexivity|]. apply P. cbn [length lit list_ascii_of_string] in L; lia. Qed.
Lemma HL_open sub cur t l : HL true cur t l -> HL sub cur (lit "<FONT POINT-SIZE=""10""><SUB>" ++ t) l.
Proof. intros P [|[|f]] L; rewrite app_length in L; cbn [length lit list_ascii_of_string] in L; try lia. transitivity (html_lines f true cur t); [reflexivity|]. apply P. lia. Qed.
Lemma HL_close sub cur t l : HL false cur t l -> HL sub cur (lit "</SUB></FONT>" ++ t) l.
Proof. intros P [|[|f]] L; rewrite app_length in L; cbn [length lit list_ascii_of_string] in L; try lia. transitivity (html_lines f false cur t); [reflexivity|]. apply P. lia. Qed.

Lemma fixed_harmless s t : forallb (fun c => (32 <=? code c) && negb (existsb (Ascii.eqb c) (lit "&<>""\"))) t = true -> Forall (harmless s) t.
Proof.
  intros H. apply Forall_forall. intros c C. rewrite forallb_forall in H. specialize (H c C). apply andb_prop in H as [H1 H2]. split; [apply Z.leb_le, H1|].
  apply negb_true_iff in H2. cbn [existsb lit list_ascii_of_string] in H2. repeat (apply orb_false_iff in H2 as [? H2]). repeat match goal with X : Ascii.eqb _ _ = false |- _ => apply Ascii.eqb_neq in X end. destruct s; auto.
Qed.
Lemma le_harmless : Forall (harmless false) (lit "<=").
Proof. repeat (apply Forall_cons; [vm_compute; repeat split; discriminate|]). apply Forall_nil. Qed.
Lemma numbers_harmless s t : Forall number_char t -> Forall (harmless s) t.
Proof. intros H. eapply Forall_impl; [|exact H]. apply number_harmless. Qed.
Lemma rev_plain a cur : rev (rev (plain a) ++ cur) = rev cur ++ plain a.
Proof. rewrite rev_app_distr, rev_involutive. reflexivity. Qed.

Section Labels.
Context {N : num}.
Variables (shown : Z -> N -> text) (percent : Z -> Z -> text) (paint : fill (N:=N) -> Z * Z * Z * Z).
Hypothesis shown_ok : forall p v, Forall number_char (shown p v).
Hypothesis percent_ok : forall c h, Forall number_char (percent c h).
Hypothesis paint_ok : forall f, let '(r, g, b, a) := paint f in 0 <= r <= 255 /\ 0 <= g <= 255 /\ 0 <= b <= 255 /\ 0 <= a <= 255.
Notation inn := (inner shown percent).
Notation bl := (box_lines shown percent).

Lemma app_keep {A} (a b c : list A) : a ++ b ++ c = (a ++ b) ++ c.
Proof. apply app_assoc. Qed.
Lemma plain_app a b : plain (a ++ b) = plain a ++ plain b.
Proof. apply map_app. Qed.
Definition what_line (s : bool) (prec : Z) (b : box N) : list glyph :=
  match b_body b with
  | Output v => plain (lit "output = " ++ shown prec v)
  | Test f v =>
      match f with inl name => plain name | inr i => if s then plain (lit "f") ++ below (show_Z i) ++ plain (lit " ") else plain (lit "f[" ++ show_Z i ++ lit "] ") end ++
       plain (lit " ") ++ (if s then [LessEq] else plain (lit "<=")) ++ plain (lit " ") ++ plain (shown prec v)
  end.
Lemma box_lines_is s prec b : bl s prec b =
  match b_id b with Some i => [plain (lit "node #" ++ show_Z i)] | None => [] end ++
  match b_count b with
  | Some (c, p) => [plain (lit "counts = " ++ show_Z c ++ match p with Some h => lit " (" ++ percent c h ++ lit "%)" | None => [] end)]
  | None => []
  end ++ [what_line s prec b].
Proof. unfold box_lines, what_line. destruct (b_body b); reflexivity. Qed.

Lemma plain_what prec b : box_safe false b -> PL [] (what_part shown false prec b) [what_line false prec b].
Proof.
  intros B. unfold what_part, what_line, box_safe in *. destruct (b_body b) as [f v|v].
  - assert (P : forall a, Forall (harmless false) a -> PL [] (a ++ lit " " ++ lit "<=" ++ lit " " ++ shown prec v) [plain a ++ plain (lit " ") ++ plain (lit "<=") ++ plain (lit " ") ++ plain (shown prec v)]).
    { intros a A. apply PL_harmless; [exact A|]. apply PL_harmless; [apply fixed_harmless; reflexivity|]. apply PL_harmless; [apply le_harmless|]. apply PL_harmless; [apply fixed_harmless; reflexivity|].
      rewrite <- (app_nil_r (shown prec v)) at 1. apply PL_harmless; [apply numbers_harmless, shown_ok|].
      replace [plain a ++ plain (lit " ") ++ plain (lit "<=") ++ plain (lit " ") ++ plain (shown prec v)] with [rev (rev (plain (shown prec v)) ++ rev (plain (lit " ")) ++ rev (plain (lit "<=")) ++ rev (plain (lit " ")) ++ rev (plain a) ++ [])]; [apply PL_end|].
      rewrite !rev_app_distr, !rev_involutive, <- !app_assoc. reflexivity. }
    destruct f as [name|i]; [exact (P name B)|]. change (lit "f" ++ c_open false ++ show_Z i ++ c_close false ++ lit " ") with (lit "f[" ++ show_Z i ++ lit "] "). apply P.
    apply Forall_app. split; [apply fixed_harmless; reflexivity|]. apply Forall_app. split; [apply show_harmless|apply fixed_harmless; reflexivity].
  - rewrite <- (app_nil_r (lit "output = " ++ shown prec v)) at 1. apply PL_harmless.
    + apply Forall_app. split; [apply fixed_harmless; reflexivity|apply numbers_harmless, shown_ok].
    + rewrite app_nil_r. rewrite <- (rev_involutive (plain (lit "output = " ++ shown prec v))) at 2. apply PL_end.
Qed.
Lemma html_what prec b : box_safe true b -> HL false [] (what_part shown true prec b) [what_line true prec b].
Proof.
  intros B. unfold what_part, what_line, box_safe in *. destruct (b_body b) as [f v|v].
  - assert (P : forall cur, HL false cur (lit " " ++ lit "&le;" ++ lit " " ++ shown prec v) [rev cur ++ plain (lit " ") ++ [LessEq] ++ plain (lit " ") ++ plain (shown prec v)]).
    { intros cur. apply HL_harmless; [apply fixed_harmless; reflexivity|]. apply HL_le. apply HL_harmless; [apply fixed_harmless; reflexivity|].
      rewrite <- (app_nil_r (shown prec v)) at 1. apply HL_harmless; [apply numbers_harmless, shown_ok|].
      replace [rev cur ++ plain (lit " ") ++ [LessEq] ++ plain (lit " ") ++ plain (shown prec v)] with [rev (rev (map (Glyph false) (shown prec v)) ++ rev (map (Glyph false) (lit " ")) ++ LessEq :: rev (map (Glyph false) (lit " ")) ++ cur)]; [apply HL_end|].
      fold (plain (lit " ")). fold (plain (shown prec v)). rewrite !rev_app_distr, !rev_involutive. cbn [rev]. rewrite !rev_app_distr, !rev_involutive, <- !app_assoc. reflexivity. }
    destruct f as [name|i].
    + apply HL_harmless; [exact B|]. specialize (P (rev (map (Glyph false) name) ++ [])). rewrite rev_app_distr, rev_involutive in P. exact P.
    + rewrite <- !app_assoc. apply HL_harmless; [apply fixed_harmless; reflexivity|]. apply HL_open. apply HL_harmless; [apply show_harmless|]. apply HL_close. apply HL_harmless; [apply fixed_harmless; reflexivity|].
      match goal with |- HL _ ?c _ _ => specialize (P c) end. rewrite !rev_app_distr, !rev_involutive in P. rewrite <- !app_assoc in P. exact P.
  - rewrite <- (app_nil_r (lit "output = " ++ shown prec v)) at 1. apply HL_harmless.
    + apply Forall_app. split; [apply fixed_harmless; reflexivity|apply numbers_harmless, shown_ok].
    + rewrite app_nil_r. fold (plain (lit "output = " ++ shown prec v)). rewrite <- (rev_involutive (plain (lit "output = " ++ shown prec v))) at 2. apply HL_end.
Qed.
Lemma label_read s prec b : box_safe s b -> label_lines (if s then Html (inn s prec b) else Word (inn s prec b)) = Some (bl s prec b).
Proof.
  intros B. rewrite box_lines_is. destruct s; cbn [label_lines].
  - enough (P : HL false [] (inn true prec b) (match b_id b with Some i => [plain (lit "node #" ++ show_Z i)] | None => [] end ++
      match b_count b with Some (c, p) => [plain (lit "counts = " ++ show_Z c ++ match p with Some h => lit " (" ++ percent c h ++ lit "%)" | None => [] end)] | None => [] end ++ [what_line true prec b])) by (apply P; lia).
    unfold inner.
    assert (C : HL false [] (count_part percent true b ++ what_part shown true prec b) (match b_count b with Some (c, p) => [plain (lit "counts = " ++ show_Z c ++ match p with Some h => lit " (" ++ percent c h ++ lit "%)" | None => [] end)] | None => [] end ++ [what_line true prec b])).
    { unfold count_part. destruct (b_count b) as [[c p]|]; [|exact (html_what prec b B)]. cbn [app]. rewrite <- !app_assoc. apply HL_harmless; [apply fixed_harmless; reflexivity|]. apply HL_harmless; [apply show_harmless|].
      destruct p as [h|].
      - rewrite <- !app_assoc. apply HL_harmless; [apply fixed_harmless; reflexivity|]. apply HL_harmless; [apply numbers_harmless, percent_ok|]. apply HL_percent. apply HL_harmless; [apply fixed_harmless; reflexivity|].
        eassert (E : plain (lit "counts = " ++ show_Z c ++ lit " (" ++ percent c h ++ lit "%)") = rev _); [|rewrite E; apply HL_break, (html_what prec b B)].
        rewrite app_nil_r, rev_app_distr. cbn [rev]. rewrite !rev_app_distr, !rev_involutive. change (lit "%)") with ("%"%char :: lit ")"). rewrite !plain_app, <- !app_assoc. reflexivity.
      - rewrite !app_nil_r. cbn [app]. eassert (E : plain (lit "counts = " ++ show_Z c) = rev _); [|rewrite E; apply HL_break, (html_what prec b B)].
        rewrite rev_app_distr, !rev_involutive, plain_app. reflexivity. }
    unfold id_part. destruct (b_id b) as [i|]; [|exact C]. rewrite <- !app_assoc. cbn [app]. apply HL_harmless; [apply fixed_harmless; reflexivity|]. apply HL_hash. apply HL_harmless; [apply show_harmless|].
    eassert (E : plain (lit "node #" ++ show_Z i) = rev _); [|rewrite E; apply HL_break, C]. rewrite rev_app_distr, rev_involutive, plain_app. reflexivity.
  - enough (P : PL [] (inn false prec b) (match b_id b with Some i => [plain (lit "node #" ++ show_Z i)] | None => [] end ++
      match b_count b with Some (c, p) => [plain (lit "counts = " ++ show_Z c ++ match p with Some h => lit " (" ++ percent c h ++ lit "%)" | None => [] end)] | None => [] end ++ [what_line false prec b])) by (apply P; lia).
    unfold inner.
    assert (C : PL [] (count_part percent false b ++ what_part shown false prec b) (match b_count b with Some (c, p) => [plain (lit "counts = " ++ show_Z c ++ match p with Some h => lit " (" ++ percent c h ++ lit "%)" | None => [] end)] | None => [] end ++ [what_line false prec b])).
    { unfold count_part. destruct (b_count b) as [[c p]|]; [|exact (plain_what prec b B)]. cbn [app].
      assert (E : (lit "counts = " ++ show_Z c ++ match p with Some h => lit " (" ++ percent c h ++ c_percent false ++ lit ")" | None => [] end ++ c_break false) ++ what_part shown false prec b
        = (lit "counts = " ++ show_Z c ++ match p with Some h => lit " (" ++ percent c h ++ lit "%)" | None => [] end) ++ lit "\n" ++ what_part shown false prec b).
      { rewrite <- !app_assoc. reflexivity. }
      rewrite E. apply PL_harmless.
      - apply Forall_app. split; [apply fixed_harmless; reflexivity|]. apply Forall_app. split; [apply show_harmless|]. destruct p; [|apply Forall_nil]. apply Forall_app. split; [apply fixed_harmless; reflexivity|]. apply Forall_app. split; [apply numbers_harmless, percent_ok|apply fixed_harmless; reflexivity].
      - rewrite app_nil_r. set (t := lit "counts = " ++ _). rewrite <- (rev_involutive (plain t)) at 2. apply PL_break, (plain_what prec b B). }
    unfold id_part. destruct (b_id b) as [i|]; [|exact C]. cbn [app].
    replace ((lit "node " ++ c_hash false ++ show_Z i ++ c_break false) ++ count_part percent false b ++ what_part shown false prec b)
      with ((lit "node #" ++ show_Z i) ++ lit "\n" ++ count_part percent false b ++ what_part shown false prec b) by (rewrite <- !app_assoc; reflexivity).
    apply PL_harmless; [apply Forall_app; split; [apply fixed_harmless; reflexivity|apply show_harmless]|]. rewrite app_nil_r. rewrite <- (rev_involutive (plain (lit "node #" ++ show_Z i))) at 2. apply PL_break, C.
Qed.
Lemma depicts_item s prec x : item_safe s x -> depicts shown percent paint s prec x (item_stmt shown percent paint s prec x).
Proof.
  destruct x as [i b|i f|p c [yes|]|k ids]; cbn [item_safe depicts item_stmt]; intros H.
  - do 2 eexists. split; [reflexivity|]. split; [apply label_read, H|apply fill_attrs_ok, paint_ok].
  - eexists. split; [reflexivity|apply fill_attrs_ok, paint_ok].
  - eexists. split; reflexivity.
  - reflexivity.
  - reflexivity.
Qed.

(** ** The whole file *)
Lemma run_items s prec : forall items, Forall (item_safe s) items ->
  run Between (concat (map (item_text shown percent paint s prec) items)) = Some (concat (map (item_tokens shown percent paint s prec) items), Between).
Proof.
  induction items as [|x items IH]; intros H; [reflexivity|]. inversion H as [|? ? X H']; subst. cbn [map concat]. apply (run_two _ _ Between _ Between _ Between (run_item shown percent paint shown_ok percent_ok paint_ok s prec x X) (IH H')).
Qed.
Theorem file_read (y : style) (o : options) (items : list (item N)) : Forall (item_safe (y_special y)) items ->
  exists g, read_dot (header y o ++ concat (map (item_text shown percent paint (y_special y) (o_precision o)) items) ++ lit "}") = Some (Word (lit "Tree"), g) /\
    exists ds l, g = ds ++ l /\ Forall decoration ds /\ Forall2 (depicts shown percent paint (y_special y) (o_precision o)) items l.
Proof.
  intros H. destruct (header_read y o) as (ts & ds & R & D & P).
  exists (ds ++ map (item_stmt shown percent paint (y_special y) (o_precision o)) items ++ []). split.
  - unfold read_dot, tokens. rewrite (run_app _ _ _ _ _ R), (run_app _ _ _ _ _ (run_items _ (o_precision o) items H)). change (run Between (lit "}")) with (Some ([TMark "}"], Between)). cbn [glue app].
    change (text_eqb (map lower (lit "digraph")) (lit "digraph") && is_mark "{" (TMark "{")) with true. cbn match. change (as_word (TWord (lit "Tree"))) with (Some (Word (lit "Tree"))). cbn match.
    rewrite (P _ _ _ (parses_items shown percent paint (y_special y) (o_precision o) items _ _ _ (parses_end []))); [reflexivity|]. cbn [app]. lia.
  - rewrite app_nil_r. do 2 eexists. split; [reflexivity|]. split; [exact D|]. clear -H shown_ok percent_ok paint_ok. induction H as [|x items X H IH]; [constructor|]. cbn [map]. constructor; [apply depicts_item, X|exact IH].
Qed.
End Labels.

(** ** Files of failed calls *)
Lemma attributes_suffix : forall n l a rest, (length l <= n)%nat -> attributes l = Some (a, rest) -> exists q, l = q ++ rest.
Proof.
  induction n as [|n IH]; intros l a rest L H; [destruct l; [discriminate|cbn in L; lia]|].
  destruct l as [|k r]; [discriminate|]. cbn [attributes] in H. destruct (is_mark "]" k); [injection H as <- <-; exists [k]; reflexivity|].
  destruct r as [|q [|v r']]; [discriminate|discriminate|]. destruct (as_word k), (is_mark "=" q), (as_word v); try discriminate. cbn [length] in L.
  destruct r' as [|s r'']; [discriminate|]. destruct (is_mark "," s || is_mark ";" s).
  - destruct (attributes r'') as [[l' rr]|] eqn:E; [|discriminate]. injection H as <- <-. destruct (IH r'' l' rr ltac:(cbn [length] in L; lia) E) as (z & ->). exists (k :: q :: v :: s :: z). reflexivity.
  - destruct (attributes (s :: r'')) as [[l' rr]|] eqn:E; [|discriminate]. injection H as <- <-. destruct (IH (s :: r'') l' rr ltac:(cbn [length] in L |- *; lia) E) as (z & Z). rewrite Z. exists (k :: q :: v :: z). reflexivity.
Qed.
Lemma attributes_opt_suffix l a rest : attributes_opt l = Some (a, rest) -> exists q, l = q ++ rest.
Proof.
  unfold attributes_opt. destruct l as [|k r]; [intros H; injection H as <- <-; exists []; reflexivity|]. destruct (is_mark "[" k); intros H.
  - destruct (attributes_suffix _ _ _ _ (le_n _) H) as (q & ->). exists (k :: q). reflexivity.
  - injection H as <- <-. exists []. reflexivity.
Qed.
Lemma skip_suffix l : exists q, l = q ++ skip l.
Proof. destruct l as [|k r]; [exists []; reflexivity|]. unfold skip. cbn [skip_mark]. destruct (is_mark ";" k); [exists [k]|exists []]; reflexivity. Qed.
Definition closed (l rest : list token) : Prop := exists q, l = q ++ TMark "}" :: rest.
Lemma closed_app a l rest : closed l rest -> closed (a ++ l) rest.
Proof. intros (q & ->). exists (a ++ q). rewrite app_assoc. reflexivity. Qed.
Lemma statements_closed : forall f l sts rest, statements f l = Some (sts, rest) -> closed l rest.
Proof.
  induction f as [|f IH]; intros l sts rest H; [discriminate|]. cbn [statements] in H. fold skip in H. destruct l as [|k r]; [discriminate|].
  assert (NX : forall s r0, match statements f (skip r0) with Some (l', r') => Some (s :: l', r') | None => None end = Some (sts, rest) -> closed r0 rest).
  { intros s r0 E. destruct (statements f (skip r0)) as [[l' r']|] eqn:F; [|discriminate]. injection E as <- <-. destruct (skip_suffix r0) as (q & Q). rewrite Q. apply closed_app. exact (IH _ _ _ F). }
  destruct (is_mark "}" k) eqn:K1.
  { injection H as <- <-. exists []. destruct k; cbn in K1; try discriminate. apply Ascii.eqb_eq in K1. subst. reflexivity. }
  destruct (is_mark "{" k).
  { destruct (statements f r) as [[sub r']|] eqn:E; [|discriminate]. apply NX in H. destruct (IH _ _ _ E) as (q & ->). change (k :: q ++ TMark "}" :: r') with ((k :: q) ++ [TMark "}"] ++ r'). rewrite app_assoc. apply closed_app, H. }
  change (k :: r) with ([k] ++ r). apply closed_app.
  destruct (as_default k).
  { destruct r as [|b r]; [discriminate|]. destruct (is_mark "[" b); [|discriminate]. destruct (attributes_opt (b :: r)) as [[a r']|] eqn:E; [|discriminate]. apply NX in H. destruct (attributes_opt_suffix _ _ _ E) as (q & ->). apply closed_app, H. }
  destruct (as_word k) as [a|]; [|discriminate].
  assert (ND : match attributes_opt r with Some (at_, r'') => match statements f (skip r'') with Some (l', r') => Some (SNode a at_ :: l', r') | None => None end | None => None end = Some (sts, rest) -> closed r rest).
  { intros E. destruct (attributes_opt r) as [[a0 r0]|] eqn:F; [|discriminate]. apply NX in E. destruct (attributes_opt_suffix _ _ _ F) as (q & ->). apply closed_app, E. }
  destruct r as [|q [|v r']]; [exact (ND H)|destruct q; exact (ND H)|].
  destruct q as [t|t|t| |c]; try (cbn [is_mark] in H; exact (ND H)).
  - destruct (as_word v); [|discriminate]. destruct (attributes_opt r') as [[a0 r0]|] eqn:F; [|discriminate]. apply NX in H. destruct (attributes_opt_suffix _ _ _ F) as (q & ->). change (TArrow :: v :: q ++ r0) with ((TArrow :: v :: q) ++ r0). apply closed_app, H.
  - destruct (is_mark "=" (TMark c)); [|exact (ND H)]. destruct (as_word v); [|discriminate]. apply NX in H. change (TMark c :: v :: r') with ([TMark c; v] ++ r'). apply closed_app, H.
Qed.
Lemma read_closed t g : read_dot t = Some g -> exists ts, tokens t = Some (ts ++ [TMark "}"]).
Proof.
  unfold read_dot. destruct (tokens t) as [[|[d| | | |] [|n [|b r]]]|]; try discriminate. destruct (_ && _); [|discriminate]. destruct (as_word n); [|discriminate].
  destruct (statements (S (length r)) r) as [[l rr]|] eqn:E; [|discriminate]. destruct rr; [|discriminate]. intros _. destruct (statements_closed _ _ _ _ E) as (q & ->). exists (TWord d :: n :: b :: q). reflexivity.
Qed.
Lemma blanks_in : forall w m ts m', blank_text w -> run m w = Some (ts, m') ->
  match m with
  | Between => ts = [] /\ m' = Between
  | InWord acc => (ts = [] /\ m' = InWord acc) \/ (ts = [TWord (rev acc)] /\ m' = Between)
  | InQuotes _ | Escaped _ => exists a, m' = InQuotes a \/ m' = Escaped a
  | InHtml d _ => exists a, m' = InHtml d a
  | Dash => m' = Dash
  end.
Proof.
  induction w as [|c w IH]; intros m ts m' B H.
  - injection H as <- <-. destruct m; eauto.
  - unfold blank_text in *. cbn [forallb] in B. apply andb_prop in B as [C B]. cbn [run] in H. destruct (step m c) as [[t1 m1]|] eqn:S; [|discriminate]. destruct (run m1 w) as [[t2 m2]|] eqn:R; [|discriminate]. injection H as <- <-.
    specialize (IH m1 t2 m2 B R).
    assert (CC : code c = 32 \/ 9 <= code c <= 13) by (unfold is_space in C; apply orb_prop in C as [C|C]; [left; apply Z.eqb_eq, C|right; apply andb_prop in C as [C1 C2]; apply Z.leb_le in C1, C2; lia]).
    assert (SB : step_between c = Some ([], Between)) by (unfold step_between; rewrite C; reflexivity).
    assert (NE : forall z, 34 <= z -> code c =? z = false) by (intros z Z; apply Z.eqb_neq; lia).
    destruct m; cbn [step] in S.
    + rewrite SB in S. injection S as <- <-. destruct IH as [-> ->]. auto.
    + assert (W : word_char c = false). { unfold word_char, letter, is_digit. rewrite !NE by lia. replace (65 <=? code c) with false by (symmetry; apply Z.leb_gt; lia). replace (97 <=? code c) with false by (symmetry; apply Z.leb_gt; lia). replace (128 <=? code c) with false by (symmetry; apply Z.leb_gt; lia). replace (48 <=? code c) with false by (symmetry; apply Z.leb_gt; lia). reflexivity. }
      rewrite W in S. destruct (word_ok (rev acc)); [|discriminate]. rewrite SB in S. injection S as <- <-. destruct IH as [-> ->]. right. auto.
    + rewrite !NE in S by lia. injection S as <- <-. exact IH.
    + rewrite NE in S by lia. destruct (code c =? 10); injection S as <- <-; exact IH.
    + rewrite !NE in S by lia. injection S as <- <-. exact IH.
    + rewrite NE in S by lia. unfold is_digit in S. replace (48 <=? code c) with false in S by (symmetry; apply Z.leb_gt; lia). rewrite NE in S by lia. discriminate S.
Qed.
Theorem unfinished_unread t : unfinished t -> read_dot t = None.
Proof.
  intros (u & c & w & -> & NB & NS & W). destruct (read_dot _) as [g|] eqn:E; [exfalso|reflexivity]. apply read_closed in E as (ts & E).
  unfold tokens in E. change (u ++ c :: w) with (u ++ [c] ++ w) in E. destruct (run Between (u ++ [c] ++ w)) as [[x m]|] eqn:R; [|discriminate].
  destruct (run_split _ _ _ _ _ R) as (t1 & m1 & t2 & R1 & R2 & ->). destruct (run_split _ _ _ _ _ R2) as (t3 & m3 & t4 & R3 & R4 & ->). clear R R1 R2.
  cbn [run] in R3. destruct (step m1 c) as [[t5 m5]|] eqn:S; [|discriminate]. injection R3 as <- <-. rewrite app_nil_r in E. pose proof (blanks_in w m5 t4 m W R4) as B.
  assert (LAST : forall (a b : list token) k, a ++ [k] = b ++ [TMark "}"] -> k = TMark "}") by (intros a b k H; apply app_inj_tail in H; tauto).
  (* the last token that has been read *)
  assert (ST : (exists a k, t5 = a ++ [k] /\ k <> TMark "}" /\ m5 = Between) \/ (m5 <> Between)).
  { assert (SB : forall a b, step_between c = Some (a, b) -> (exists k, a = [k] /\ k <> TMark "}" /\ b = Between) \/ b <> Between).
    { intros a b H. unfold step_between in H. rewrite NS in H. repeat match type of H with (if ?z then _ else _) = _ => destruct z end; try discriminate H; injection H as <- <-; try (right; discriminate). left. eexists. split; [reflexivity|]. split; [congruence|reflexivity]. }
    destruct m1; cbn [step] in S.
    - destruct (SB _ _ S) as [(k & -> & K & ->)|K]; [left; exists [], k; auto|right; exact K].
    - destruct (word_char c); [injection S as <- <-; right; discriminate|]. destruct (word_ok (rev acc)); [|discriminate]. destruct (step_between c) as [[a b]|] eqn:Q; [|discriminate]. injection S as <- <-.
      destruct (SB _ _ eq_refl) as [(k & -> & K & ->)|K]; [left; exists [TWord (rev acc)], k; auto|right; exact K].
    - destruct (code c =? 34); [injection S as <- <-; left; exists [], (TQuoted (rev acc)); repeat split; discriminate|]. destruct (code c =? 92); injection S as <- <-; right; discriminate.
    - destruct (code c =? 34); [injection S as <- <-; right; discriminate|]. destruct (code c =? 10); injection S as <- <-; right; discriminate.
    - destruct (code c =? 60); [injection S as <- <-; right; discriminate|]. destruct (code c =? 62); [|injection S as <- <-; right; discriminate]. destruct depth; injection S as <- <-; [left; exists [], (THtml (rev acc)); repeat split; discriminate|right; discriminate].
    - destruct (code c =? 62); [injection S as <- <-; left; exists [], TArrow; repeat split; discriminate|]. destruct (is_digit c || (code c =? 46)); [|discriminate]. injection S as <- <-. right. discriminate. }
  destruct ST as [(a & k & -> & K & ->)|NM].
  - destruct B as [-> ->]. injection E as E. rewrite app_nil_r, app_assoc in E. apply LAST in E. contradiction.
  - destruct m5 as [|acc|acc|acc|d acc|]; [contradiction| | | | |].
    + destruct B as [[-> ->]|[-> ->]].
      * destruct (word_ok (rev acc)); [|discriminate]. injection E as E. apply LAST in E. discriminate.
      * injection E as E. rewrite !app_assoc in E. apply LAST in E. discriminate.
    + destruct B as (a & [-> | ->]); discriminate.
    + destruct B as (a & [-> | ->]); discriminate.
    + destruct B as (a & ->); discriminate.
    + subst m. discriminate.
Qed.

Section Drawing.
Context {N : num}.
Definition names_harmless (s : bool) (o : options) : Prop := match o_names o with None => True | Some l => Forall (Forall (harmless s)) l end.
Lemma picture_safe (o : options) col b (t : tree Z N) s : names_harmless s o -> box_safe s (picture o col b t).
Proof.
  unfold names_harmless, box_safe, picture. cbn [b_body]. intros H. unfold text_of. destruct t as [i v|i f thr l r]; [exact I|]. destruct (o_names o) as [ns|]; [|exact I].
  rewrite Forall_forall in H. destruct (nth_in_or_default (Z.to_nat f) ns []) as [X| ->]; [apply H, X|constructor].
Qed.
Lemma items_safe (o : options) col b s (items : list (item N)) (ts : list (tree Z N)) : names_harmless s o ->
  boxes items = map (fun t => (mark t, picture o col b t)) ts -> Forall (item_safe s) items.
Proof.
  intros H E. apply Forall_forall. intros x X. destruct x as [i bx|i f|p c h|k ids]; cbn [item_safe]; try exact I.
  assert (B : In (i, bx) (boxes items)). { unfold boxes. apply in_flat_map. exists (Box i bx). split; [exact X|left; reflexivity]. }
  rewrite E in B. apply in_map_iff in B as (t & Q & _). injection Q as _ <-. apply picture_safe, H.
Qed.
End Drawing.
