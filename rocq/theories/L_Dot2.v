(** Proofs about the text of the drawings: tokens and statements. *)
From Coq Require Import Ascii String List ZArith Bool Lia.
From Verif Require Import Base Num M_Text M_Ensemble M_Graphviz M_Dot S_Svmlight S_Loaders S_Graphviz S_Dot L_Fixed L_Loaders L_Dot.
Import ListNotations.
Local Open Scope Z_scope.

(** ** Tokens *)
Definition glue (ts : list token) (x : option (list token * mode)) : option (list token * mode) := match x with Some (us, m) => Some (ts ++ us, m) | None => None end.
Lemma run_app : forall a m b ts m1, run m a = Some (ts, m1) -> run m (a ++ b) = glue ts (run m1 b).
Proof.
  induction a as [|c a IH]; intros m b ts m1 H; cbn [app run] in *.
  - injection H as <- <-. destruct (run m b) as [[us m2]|]; reflexivity.
  - destruct (step m c) as [[t1 m2]|]; [|discriminate]. destruct (run m2 a) as [[t2 m3]|] eqn:E; [|discriminate]. injection H as <- <-.
    rewrite (IH m2 b t2 m3 E). destruct (run m3 b) as [[us m4]|]; cbn [glue]; [rewrite app_assoc|]; reflexivity.
Qed.
Lemma run_two a b m t1 m1 t2 m2 : run m a = Some (t1, m1) -> run m1 b = Some (t2, m2) -> run m (a ++ b) = Some (t1 ++ t2, m2).
Proof. intros A B. rewrite (run_app _ _ b _ _ A), B. reflexivity. Qed.
Lemma run_split : forall a m b ts m2, run m (a ++ b) = Some (ts, m2) -> exists t1 m1 t2, run m a = Some (t1, m1) /\ run m1 b = Some (t2, m2) /\ ts = t1 ++ t2.
Proof.
  induction a as [|c a IH]; intros m b ts m2 H; cbn [app run] in *; [exists [], m, ts; auto|].
  destruct (step m c) as [[t0 m0]|]; [|discriminate]. destruct (run m0 (a ++ b)) as [[us m3]|] eqn:G; [|discriminate]. injection H as <- <-.
  destruct (IH _ _ _ _ G) as (t1 & m1 & t2 & E & F & ->). exists (t0 ++ t1), m1, t2. rewrite E. split; [reflexivity|]. split; [exact F|]. apply app_assoc.
Qed.
(** A word ends at the first other character. *)
Lemma run_word acc c t : word_ok (rev acc) = true -> word_char c = false -> run (InWord acc) (c :: t) = glue [TWord (rev acc)] (run Between (c :: t)).
Proof.
  intros H C. cbn [run step]. rewrite C, H. destruct (step_between c) as [[ts m]|]; [|reflexivity]. destruct (run m t) as [[us m']|]; reflexivity.
Qed.
Lemma run_after acc c t ts m : word_ok (rev acc) = true -> word_char c = false -> run Between (c :: t) = Some (ts, m) -> run (InWord acc) (c :: t) = Some (TWord (rev acc) :: ts, m).
Proof. intros H C R. rewrite (run_word _ _ _ H C), R. reflexivity. Qed.
Lemma digit_is c : digit_char c -> is_digit c = true.
Proof. intros C. cbn in C. repeat (destruct C as [<-|C]; [reflexivity|]). contradiction. Qed.
Lemma digit_not_letter c : digit_char c -> letter c = false /\ code c =? 45 = false /\ step_between c = Some ([], InWord [c]).
Proof. intros C. cbn in C. repeat (destruct C as [<-|C]; [split; [|split]; reflexivity|]). contradiction. Qed.
Lemma run_digits : forall ds acc, digits ds -> run (InWord acc) ds = Some ([], InWord (rev ds ++ acc)).
Proof.
  induction ds as [|c ds IH]; intros acc D; [reflexivity|]. inversion D as [|? ? C D']; subst. cbn [run step]. unfold word_char. rewrite (digit_is c C), orb_true_r. cbn [orb].
  rewrite (IH (c :: acc) D'). cbn [rev app]. rewrite <- app_assoc. reflexivity.
Qed.
Lemma number_digits : forall ds some, digits ds -> number_rest some ds = some || match ds with [] => false | _ => true end.
Proof.
  induction ds as [|c ds IH]; intros some D; cbn [number_rest]; [rewrite orb_false_r; reflexivity|]. inversion D as [|? ? C D']; subst. rewrite (digit_is c C), (IH true D'). rewrite orb_true_r. reflexivity.
Qed.
Lemma show_shape n : exists c ds, digit_char c /\ digits ds /\ (show_Z n = c :: ds \/ show_Z n = "-"%char :: c :: ds).
Proof.
  destruct (Z.ltb_spec n 0) as [H|H].
  - assert (E : show_Z n = "-"%char :: show_Z (- n)). { unfold show_Z. destruct (Z.ltb_spec n 0); [|lia]. destruct (Z.ltb_spec (- n) 0); [lia|]. reflexivity. }
    destruct (show_nonneg (- n)) as (D & NE & _); [lia|]. destruct (show_Z (- n)) as [|c ds]; [contradiction|]. inversion D; subst. exists c, ds. auto.
  - destruct (show_nonneg n H) as (D & NE & _). destruct (show_Z n) as [|c ds]; [contradiction|]. inversion D; subst. exists c, ds. auto.
Qed.
Lemma run_show n : run Between (show_Z n) = Some ([], InWord (rev (show_Z n))).
Proof.
  destruct (show_shape n) as (c & ds & C & D & [->| ->]).
  - cbn [run step]. rewrite (proj2 (proj2 (digit_not_letter c C))). cbn [run]. rewrite (run_digits ds _ D). reflexivity.
  - cbn [run]. change (step Between "-") with (Some (@nil token, Dash)). cbn [run step]. destruct (code c =? 62) eqn:E.
    { exfalso. apply Z.eqb_eq in E. cbn in C. repeat (destruct C as [<-|C]; [discriminate E|]). contradiction. }
    rewrite (digit_is c C). cbn [orb]. rewrite (run_digits ds _ D). cbn [app rev]. rewrite <- app_assoc. reflexivity.
Qed.
Lemma show_word n : word_ok (show_Z n) = true.
Proof.
  destruct (show_shape n) as (c & ds & C & D & [->| ->]); cbn [word_ok].
  - rewrite (proj1 (digit_not_letter c C)), (proj1 (proj2 (digit_not_letter c C))). rewrite number_digits; [reflexivity|constructor; assumption].
  - change (letter "-") with false. change (code "-" =? 45) with true. cbn match. rewrite number_digits; [reflexivity|constructor; assumption].
Qed.
Lemma show_not_keyword n : is_keyword (show_Z n) = false /\ as_default (TWord (show_Z n)) = None.
Proof.
  assert (F : forall k, In k [lit "node"; lit "edge"; lit "graph"; lit "digraph"; lit "subgraph"; lit "strict"] -> text_eqb (map lower (show_Z n)) k = false).
  { intros k K. unfold text_eqb. destruct (list_eq_dec ascii_dec (map lower (show_Z n)) k) as [E|]; [exfalso|reflexivity].
    destruct (show_shape n) as (c & ds & C & D & [S| S]); rewrite S in E; cbn [map] in E.
    - assert (L : lower c = c) by (cbn in C; repeat (destruct C as [<-|C]; [reflexivity|]); contradiction). rewrite L in E.
      cbn in K. repeat (destruct K as [<-|K]; [injection E as E _; subst c; cbn in C; intuition discriminate|]). contradiction.
    - change (lower "-") with "-"%char in E. cbn in K. repeat (destruct K as [<-|K]; [discriminate E|]). contradiction. }
  split; [unfold is_keyword; cbn [existsb]; rewrite !F by (cbn; tauto); reflexivity|].
  unfold as_default. cbn [existsb]. rewrite !F by (cbn; tauto). reflexivity.
Qed.
(** show_Z and then something that is no part of a word. *)
Lemma run_show_then n c t ts m : word_char c = false -> run Between (c :: t) = Some (ts, m) -> run Between (show_Z n ++ c :: t) = Some (TWord (show_Z n) :: ts, m).
Proof.
  intros C R. rewrite (run_app _ _ _ _ _ (run_show n)). rewrite (run_after _ c t ts m); [|rewrite rev_involutive; apply show_word|exact C|exact R].
  cbn [glue app]. rewrite rev_involutive. reflexivity.
Qed.

(** Labels. *)
Definition quotable (t : text) : Prop := forall acc, run (InQuotes acc) t = Some ([], InQuotes (rev t ++ acc)).
Definition htmlable (t : text) : Prop := forall d acc, run (InHtml d acc) t = Some ([], InHtml d (rev t ++ acc)).
Definition inlabel (s : bool) (t : text) : Prop := if s then htmlable t else quotable t.
Lemma inlabel_app s a b : inlabel s a -> inlabel s b -> inlabel s (a ++ b).
Proof.
  destruct s; cbn [inlabel]; intros A B.
  - intros d acc. rewrite (run_two a b _ _ _ _ _ (A d acc) (B d _)). rewrite rev_app_distr, <- app_assoc. reflexivity.
  - intros acc. rewrite (run_two a b _ _ _ _ _ (A acc) (B _)). rewrite rev_app_distr, <- app_assoc. reflexivity.
Qed.
Lemma inlabel_nil s : inlabel s [].
Proof. destruct s; cbn [inlabel]; [intros d acc|intros acc]; reflexivity. Qed.
Lemma code_of c n : code c = n -> c = ascii_of_nat (Z.to_nat n).
Proof. intros <-. unfold code. rewrite Nat2Z.id, ascii_nat_embedding. reflexivity. Qed.
Lemma code_ne c d : c <> d -> (code c =? code d) = false.
Proof. intros H. apply Z.eqb_neq. intros E. apply H. apply code_of in E. rewrite E. unfold code. rewrite Nat2Z.id. apply ascii_nat_embedding. Qed.
Lemma inlabel_harmless s t : Forall (harmless s) t -> inlabel s t.
Proof.
  intros H. induction H as [|c t C _ IH]; [apply inlabel_nil|]. change (c :: t) with ([c] ++ t). apply inlabel_app; [|exact IH].
  destruct C as (_ & _ & C). destruct s; cbn [inlabel]; destruct C as [C1 C2]; apply code_ne in C1, C2.
  - intros d acc. cbn [run step]. change 60 with (code "<"). change 62 with (code ">"). rewrite C1, C2. reflexivity.
  - intros acc. cbn [run step]. change 34 with (code """"). change 92 with (code "\"). rewrite C1, C2. reflexivity.
Qed.
Lemma inlabel_break s : inlabel s (c_break s).
Proof. destruct s; cbn [inlabel]; [intros d acc|intros acc]; reflexivity. Qed.
Lemma number_harmless s c : number_char c -> harmless s c.
Proof. intros C. unfold harmless. cbn in C. destruct s; repeat (destruct C as [<-|C]; [vm_compute; repeat split; discriminate|]); contradiction. Qed.
Lemma show_harmless s n : Forall (harmless s) (show_Z n).
Proof.
  assert (D : forall c, digit_char c -> harmless s c) by (intros c C; apply number_harmless; cbn in *; tauto).
  destruct (show_shape n) as (c & ds & C & DS & [->| ->]).
  - apply Forall_cons; [apply D, C|]. eapply Forall_impl; [exact D|exact DS].
  - apply Forall_cons; [apply number_harmless; cbn; tauto|]. apply Forall_cons; [apply D, C|]. eapply Forall_impl; [exact D|exact DS].
Qed.

(** The text between the quotes of a box. *)
Lemma drop_end_app e t : drop_end e (t ++ e) = t.
Proof.
  unfold drop_end. rewrite app_length. replace (length t + length e - length e)%nat with (length t) by lia.
  rewrite skipn_app, skipn_all, Nat.sub_diag, firstn_app, firstn_all, Nat.sub_diag. cbn [skipn firstn app]. rewrite app_nil_r. destruct (list_eq_dec ascii_dec e e); congruence.
Qed.
Lemma drop_end_other e x t c : last e x <> c -> e <> [] -> drop_end e (t ++ [c]) = t ++ [c].
Proof.
  intros L NE. unfold drop_end. destruct (list_eq_dec ascii_dec _ e) as [E|]; [exfalso|reflexivity]. apply L. rewrite <- E. clear E L.
  rewrite app_length. cbn [length]. rewrite skipn_app. replace (length t + 1 - length e - length t)%nat with 0%nat by (destruct e; [contradiction|cbn [length]; lia]). cbn [skipn]. apply last_last.
Qed.
Section Boxes.
Context {N : num}.
Variables (shown : Z -> N -> text) (percent : Z -> Z -> text) (paint : fill (N:=N) -> Z * Z * Z * Z).
Hypothesis shown_ok : forall p v, Forall number_char (shown p v).
Hypothesis percent_ok : forall c h, Forall number_char (percent c h).
Hypothesis paint_ok : forall f, let '(r, g, b, a) := paint f in 0 <= r <= 255 /\ 0 <= g <= 255 /\ 0 <= b <= 255 /\ 0 <= a <= 255.

Definition id_part (s : bool) (b : box N) : text := match b_id b with Some i => lit "node " ++ c_hash s ++ show_Z i ++ c_break s | None => [] end.
Definition count_part (s : bool) (b : box N) : text :=
  match b_count b with
  | Some (c, p) => lit "counts = " ++ show_Z c ++ match p with Some h => lit " (" ++ percent c h ++ c_percent s ++ lit ")" | None => [] end ++ c_break s
  | None => []
  end.
Definition what_part (s : bool) (prec : Z) (b : box N) : text :=
  match b_body b with
  | Test f v => match f with inl name => name | inr i => lit "f" ++ c_open s ++ show_Z i ++ c_close s ++ lit " " end ++ lit " " ++ c_le s ++ lit " " ++ shown prec v
  | Output v => lit "output = " ++ shown prec v
  end.
Definition inner (s : bool) (prec : Z) (b : box N) : text := id_part s b ++ count_part s b ++ what_part s prec b.
Lemma number_last t : Forall number_char t -> t = [] \/ exists u c, t = u ++ [c] /\ number_char c.
Proof.
  intros H. destruct t as [|a t]; [left; reflexivity|right]. destruct (@exists_last _ (a :: t)) as (u & c & E); [discriminate|]. rewrite E in *. exists u, c. split; [reflexivity|]. apply Forall_app in H as [_ H]. inversion H; assumption.
Qed.
Lemma what_last s prec b : exists u c, what_part s prec b = u ++ [c] /\ c <> ">"%char.
Proof.
  unfold what_part. destruct (b_body b) as [f v|v]; (destruct (number_last _ (shown_ok prec v)) as [->|(u & c & -> & C)]; [|rewrite !app_assoc; eexists _, c; split; [reflexivity|intros ->; cbn in C; intuition discriminate]]).
  - rewrite !app_assoc, app_nil_r. eexists _, " "%char. split; [reflexivity|discriminate].
  - exists (lit "output ="), " "%char. split; [reflexivity|discriminate].
Qed.
Lemma node_to_str_is s prec b : node_to_str shown percent s prec b = c_start s ++ inner s prec b ++ c_end s.
Proof.
  unfold node_to_str. fold (id_part s b). fold (count_part s b).
  set (t := c_start s ++ _).
  assert (E : t = (c_start s ++ inner s prec b) ++ c_break s).
  { subst t. unfold inner, what_part. destruct (b_body b); rewrite <- !app_assoc; reflexivity. }
  rewrite E. clear t E. rewrite (app_assoc (c_start s)). f_equal. destruct s.
  - unfold c_break. change (lit "<br/>") with (lit "<br/" ++ [">"%char]). rewrite app_assoc, (drop_end_other (lit "\n") "n" _ ">"); [|discriminate|discriminate].
    rewrite <- app_assoc. apply drop_end_app.
  - cbn [c_break]. rewrite drop_end_app. unfold inner. destruct (what_last false prec b) as (u & c & -> & C). rewrite !app_assoc. apply (drop_end_other _ "n"); [cbn; congruence|discriminate].
Qed.
(** Names that can be shown as they are. *)
Definition box_safe (s : bool) (b : box N) : Prop := match b_body b with Test (inl name) _ => Forall (harmless s) name | _ => True end.
Lemma lit_harmless s t : Forall (harmless s) t -> inlabel s t.
Proof. apply inlabel_harmless. Qed.
Lemma numbers_inlabel s t : Forall number_char t -> inlabel s t.
Proof. intros H. apply inlabel_harmless. eapply Forall_impl; [|exact H]. apply number_harmless. Qed.
Ltac calm := apply inlabel_harmless; repeat (apply Forall_cons; [destruct_with_eqn bool; vm_compute; repeat split; discriminate|]); apply Forall_nil.
Lemma inner_inlabel s prec b : box_safe s b -> inlabel s (inner s prec b).
Proof.
  intros B.
  assert (FIX : forall t, forallb (fun c => (32 <=? code c) && negb (existsb (Ascii.eqb c) (lit "&<>""\"))) t = true -> inlabel s t).
  { intros t H. apply inlabel_harmless. apply Forall_forall. intros c C. rewrite forallb_forall in H. specialize (H c C). apply andb_prop in H as [H1 H2]. split; [apply Z.leb_le, H1|].
    apply negb_true_iff in H2. cbn [existsb lit list_ascii_of_string] in H2. repeat (apply orb_false_iff in H2 as [? H2]). repeat match goal with X : Ascii.eqb _ _ = false |- _ => apply Ascii.eqb_neq in X end. destruct s; auto. }
  assert (SH : forall i, inlabel s (show_Z i)) by (intros i; apply inlabel_harmless, show_harmless).
  unfold inner. apply inlabel_app; [|apply inlabel_app].
  - unfold id_part. destruct (b_id b); [|apply inlabel_nil]. apply inlabel_app; [apply FIX; reflexivity|]. apply inlabel_app; [destruct s; [intros d acc; reflexivity|apply FIX; reflexivity]|]. apply inlabel_app; [apply SH|apply inlabel_break].
  - unfold count_part. destruct (b_count b) as [[c p]|]; [|apply inlabel_nil]. apply inlabel_app; [apply FIX; reflexivity|]. apply inlabel_app; [apply SH|]. apply inlabel_app; [|apply inlabel_break].
    destruct p; [|apply inlabel_nil]. apply inlabel_app; [apply FIX; reflexivity|]. apply inlabel_app; [apply numbers_inlabel, percent_ok|]. apply inlabel_app; [destruct s; [intros d acc; reflexivity|apply FIX; reflexivity]|apply FIX; reflexivity].
  - unfold what_part, box_safe in *. destruct (b_body b) as [f v|v].
    + apply inlabel_app.
      * destruct f as [name|i]; [apply inlabel_harmless, B|]. apply inlabel_app; [apply FIX; reflexivity|]. apply inlabel_app; [destruct s; [intros d acc; reflexivity|apply FIX; reflexivity]|]. apply inlabel_app; [apply SH|].
        apply inlabel_app; [destruct s; [intros d acc; reflexivity|apply FIX; reflexivity]|apply FIX; reflexivity].
      * apply inlabel_app; [apply FIX; reflexivity|]. apply inlabel_app; [destruct s; [intros d acc; reflexivity|intros acc; reflexivity]|]. apply inlabel_app; [apply FIX; reflexivity|apply numbers_inlabel, shown_ok].
    + apply inlabel_app; [apply FIX; reflexivity|apply numbers_inlabel, shown_ok].
Qed.
Definition label_token (s : bool) (prec : Z) (b : box N) : token := if s then THtml (inner s prec b) else TQuoted (inner s prec b).
Lemma run_label s prec b : box_safe s b -> run Between (node_to_str shown percent s prec b) = Some ([label_token s prec b], Between).
Proof.
  intros B. rewrite node_to_str_is. pose proof (inner_inlabel s prec b B) as I. unfold label_token. destruct s; cbn [inlabel] in I.
  - change (c_start true ++ inner true prec b ++ c_end true) with ("<"%char :: inner true prec b ++ lit ">"). cbn [run]. change (step Between "<") with (Some (@nil token, InHtml 0 [])). cbn match.
    rewrite (run_app _ _ _ _ _ (I 0%nat [])). rewrite app_nil_r. cbn [run lit list_ascii_of_string step]. change (code ">" =? 60) with false. change (code ">" =? 62) with true. cbn match. cbn [glue app]. rewrite rev_involutive. reflexivity.
  - change (c_start false ++ inner false prec b ++ c_end false) with (""""%char :: inner false prec b ++ lit """"). cbn [run]. change (step Between """") with (Some (@nil token, InQuotes [])). cbn match.
    rewrite (run_app _ _ _ _ _ (I [])). rewrite app_nil_r. cbn [run lit list_ascii_of_string step]. change (code """" =? 34) with true. cbn match. cbn [glue app]. rewrite rev_involutive. reflexivity.
Qed.
(** Colours. *)
Lemma hex_digit_ok d : 0 <= d < 16 -> hex_value (hex_digit d) = Some d /\ harmless false (hex_digit d).
Proof.
  intros H. assert (C : d = 0 \/ d = 1 \/ d = 2 \/ d = 3 \/ d = 4 \/ d = 5 \/ d = 6 \/ d = 7 \/ d = 8 \/ d = 9 \/ d = 10 \/ d = 11 \/ d = 12 \/ d = 13 \/ d = 14 \/ d = 15) by lia.
  repeat (destruct C as [->|C]; [split; [reflexivity|vm_compute; repeat split; discriminate]|]). subst d. split; [reflexivity|vm_compute; repeat split; discriminate].
Qed.
Lemma hex2_ok c : 0 <= c <= 255 -> exists a b, hex2 c = [a; b] /\ hex_pair a b = Some c /\ harmless false a /\ harmless false b.
Proof.
  intros H. destruct (hex_digit_ok (c / 16)) as [A1 A2]; [split; [apply Z.div_pos; lia|apply Z.div_lt_upper_bound; lia]|]. destruct (hex_digit_ok (c mod 16)) as [B1 B2]; [apply Z.mod_pos_bound; lia|].
  exists (hex_digit (c / 16)), (hex_digit (c mod 16)). split; [reflexivity|]. split; [|auto]. unfold hex_pair. rewrite A1, B1. f_equal. symmetry. apply Z.div_mod. lia.
Qed.
Lemma get_color_ok f : Forall (harmless false) (get_color paint f) /\ let '(r, g, b, a) := paint f in rgba (get_color paint f) = Some (r, g, b, a * 3 / 4).
Proof.
  unfold get_color. pose proof (paint_ok f) as P. destruct (paint f) as [[[r g] b] a]. destruct P as (R & G & B & A).
  assert (A' : 0 <= a * 3 / 4 <= 255) by (split; [apply Z.div_pos; lia|apply Z.div_le_upper_bound; lia]). rewrite Z.min_r by lia.
  destruct (hex2_ok r R) as (r1 & r2 & -> & R' & ? & ?), (hex2_ok g G) as (g1 & g2 & -> & G' & ? & ?), (hex2_ok b B) as (b1 & b2 & -> & B' & ? & ?), (hex2_ok _ A') as (a1 & a2 & -> & A'' & ? & ?).
  cbn [app lit list_ascii_of_string]. split.
  - apply Forall_cons; [vm_compute; repeat split; discriminate|]. repeat (apply Forall_cons; [assumption|]). apply Forall_nil.
  - cbn [rgba]. change (code "#" =? 35) with true. cbn match. rewrite R', G', B', A''. reflexivity.
Qed.
Definition fill_value (f : fill (N:=N)) : text := match f with NoFill => [] | White => lit "#ffffffff" | Grey => lit "#C0C0C0" | _ => get_color paint f end.
Definition fill_tokens (f : fill (N:=N)) : list token := match f with NoFill => [] | _ => [TMark ","; TWord (lit "fillcolor"); TMark "="; TQuoted (fill_value f)] end.
Definition fill_attrs (f : fill (N:=N)) : list (word * word) := match f with NoFill => [] | _ => [(Word (lit "fillcolor"), Word (fill_value f))] end.
Lemma run_quoted t : Forall (harmless false) t -> run Between (lit """" ++ t ++ lit """") = Some ([TQuoted t], Between).
Proof.
  intros H. apply (inlabel_harmless false) in H. cbn [inlabel] in H. cbn [app lit list_ascii_of_string run]. change (step Between """") with (Some (@nil token, InQuotes [])). cbn match.
  rewrite (run_app _ _ _ _ _ (H [])). rewrite app_nil_r. cbn [run lit list_ascii_of_string step]. change (code """" =? 34) with true. cbn match. cbn [glue app]. rewrite rev_involutive. reflexivity.
Qed.
Lemma run_fill f : run Between (fill_text paint f) = Some (fill_tokens f, Between).
Proof.
  assert (C : forall f, run Between (lit ", fillcolor=""" ++ get_color paint f ++ lit """") = Some ([TMark ","; TWord (lit "fillcolor"); TMark "="; TQuoted (get_color paint f)], Between)).
  { intros f0. change (lit ", fillcolor=""" ++ get_color paint f0 ++ lit """") with (lit ", fillcolor=" ++ lit """" ++ get_color paint f0 ++ lit """").
    rewrite (run_two _ _ Between [TMark ","; TWord (lit "fillcolor"); TMark "="] Between [TQuoted (get_color paint f0)] Between); [reflexivity|reflexivity|]. apply run_quoted, get_color_ok. }
  destruct f; [reflexivity|reflexivity|reflexivity|apply C|apply C].
Qed.
Lemma fill_attrs_ok f : filled_as paint f (fill_attrs f).
Proof. destruct f; cbn [filled_as fill_attrs fill_value]; try (eexists; split; [reflexivity|]); try reflexivity; apply get_color_ok. Qed.

(** ** Statements *)
Definition stop_tokens : list token := [TMark ";"].
Definition id_tokens (ids : list Z) : list token :=
  match ids with [] => [] | i :: r => TWord (show_Z i) :: concat (map (fun j => [TMark ";"; TWord (show_Z j)]) r) end.
Definition item_tokens (s : bool) (prec : Z) (x : item N) : list token :=
  match x with
  | Box i b => [TWord (show_Z i); TMark "["; TWord (lit "label"); TMark "="; label_token s prec b] ++ fill_tokens (b_fill b) ++ [TMark "]"; TMark ";"]
  | Dots i f => [TWord (show_Z i); TMark "["; TWord (lit "label"); TMark "="; TQuoted (lit "(...)")] ++ fill_tokens f ++ [TMark "]"; TMark ";"]
  | Arrow p c h => [TWord (show_Z p); TArrow; TWord (show_Z c)] ++
      match h with
      | None => []
      | Some yes => [TMark "["; TWord (lit "labeldistance"); TMark "="; TWord (lit "2.5"); TMark ","; TWord (lit "labelangle"); TMark "="; TWord (if yes then lit "45" else lit "-45"); TMark ",";
                     TWord (lit "headlabel"); TMark "="; TQuoted (if yes then lit "True" else lit "False"); TMark "]"]
      end ++ [TMark ";"]
  | Rank _ ids => [TMark "{"; TWord (lit "rank"); TMark "="; TWord (lit "same"); TMark ";"] ++ id_tokens ids ++ [TMark "}"; TMark ";"]
  end.
Definition item_stmt (s : bool) (prec : Z) (x : item N) : stmt :=
  match x with
  | Box i b => SNode (names i) ((Word (lit "label"), if s then Html (inner s prec b) else Word (inner s prec b)) :: fill_attrs (b_fill b))
  | Dots i f => SNode (names i) ((Word (lit "label"), Word (lit "(...)")) :: fill_attrs f)
  | Arrow p c None => SEdge (names p) (names c) []
  | Arrow p c (Some yes) => SEdge (names p) (names c)
      [(Word (lit "labeldistance"), Word (lit "2.5")); (Word (lit "labelangle"), Word (if yes then lit "45" else lit "-45")); (Word (lit "headlabel"), Word (if yes then lit "True" else lit "False"))]
  | Rank _ ids => SSub (SSet (Word (lit "rank")) (Word (lit "same")) :: map (fun i => SNode (names i) []) ids)
  end.
Definition item_safe (s : bool) (x : item N) : Prop := match x with Box _ b => box_safe s b | _ => True end.
Lemma run_ids : forall ids t ts m, (exists c r, t = c :: r /\ word_char c = false) -> run Between t = Some (ts, m) ->
  run Between (joined_by (lit "; ") (map show_Z ids) ++ t) = Some (id_tokens ids ++ ts, m).
Proof.
  intros [|i ids] t ts m (c & r & E & C) R; [exact R|]. cbn [map id_tokens]. revert i. induction ids as [|j ids IH]; intros i.
  - cbn [joined_by map concat app]. subst t. exact (run_show_then i c r ts m C R).
  - specialize (IH j).
    assert (E2 : joined_by (lit "; ") (show_Z i :: map show_Z (j :: ids)) ++ t = show_Z i ++ ";"%char :: " "%char :: joined_by (lit "; ") (show_Z j :: map show_Z ids) ++ t).
    { transitivity ((show_Z i ++ lit "; " ++ joined_by (lit "; ") (show_Z j :: map show_Z ids)) ++ t); [reflexivity|]. rewrite <- !app_assoc. reflexivity. }
    rewrite E2. clear E2.
    rewrite (run_show_then i ";" _ (TMark ";" :: TWord (show_Z j) :: concat (map (fun j => [TMark ";"; TWord (show_Z j)]) ids) ++ ts) m); [cbn [app]; rewrite <- ?app_assoc; reflexivity|reflexivity|].
    change (";"%char :: " "%char :: joined_by (lit "; ") (show_Z j :: map show_Z ids) ++ t) with (lit "; " ++ joined_by (lit "; ") (show_Z j :: map show_Z ids) ++ t).
    rewrite (run_app (lit "; ") Between _ [TMark ";"] Between eq_refl). rewrite IH. reflexivity.
Qed.
Lemma run_item s prec x : item_safe s x -> run Between (item_text shown percent paint s prec x) = Some (item_tokens s prec x, Between).
Proof.
  destruct x as [i b|i f|p c h|k ids]; cbn [item_text item_tokens item_safe]; intros H.
  - unfold box_text. change (lit " [label=") with (" "%char :: lit "[label="). rewrite <- app_comm_cons.
    rewrite (run_show_then i " " _ ([TMark "["; TWord (lit "label"); TMark "="; label_token s prec b] ++ fill_tokens (b_fill b) ++ [TMark "]"; TMark ";"]) Between); [reflexivity|reflexivity|].
    rewrite app_comm_cons. apply (run_two _ _ Between [TMark "["; TWord (lit "label"); TMark "="] Between (label_token s prec b :: fill_tokens (b_fill b) ++ [TMark "]"; TMark ";"]) Between); [reflexivity|].
    apply (run_two _ _ Between [label_token s prec b] Between (fill_tokens (b_fill b) ++ [TMark "]"; TMark ";"]) Between); [apply run_label, H|].
    apply (run_two _ _ Between (fill_tokens (b_fill b)) Between [TMark "]"; TMark ";"] Between); [apply run_fill|reflexivity].
  - unfold dots_text. rewrite <- !app_assoc. change (lit " [label=""(...)""") with (" "%char :: lit "[label=""(...)"""). rewrite <- app_comm_cons.
    rewrite (run_show_then i " " _ ([TMark "["; TWord (lit "label"); TMark "="; TQuoted (lit "(...)")] ++ fill_tokens f ++ [TMark "]"; TMark ";"]) Between); [reflexivity|reflexivity|].
    rewrite app_comm_cons. apply (run_two _ _ Between [TMark "["; TWord (lit "label"); TMark "="; TQuoted (lit "(...)")] Between (fill_tokens f ++ [TMark "]"; TMark ";"]) Between); [reflexivity|].
    apply (run_two _ _ Between (fill_tokens f) Between [TMark "]"; TMark ";"] Between); [apply run_fill|reflexivity].
  - unfold arrow_text. change (lit " -> ") with (" "%char :: lit "-> "). rewrite <- app_comm_cons.
    set (tail := match h with None => [] | Some _ => _ end ++ stop).
    set (tt := match h with None => [] | Some _ => _ end ++ [TMark ";"]).
    assert (T : run Between tail = Some (tt, Between) /\ exists r, tail = " "%char :: r) by (subst tail tt; destruct h as [[|]|]; (split; [reflexivity|eexists; reflexivity])).
    clearbody tail tt. destruct T as [T (r & ->)].
    rewrite (run_show_then p " " _ (TArrow :: TWord (show_Z c) :: tt) Between); [reflexivity|reflexivity|].
    rewrite app_comm_cons. apply (run_two _ _ Between [TArrow] Between (TWord (show_Z c) :: tt) Between); [reflexivity|]. apply run_show_then; [reflexivity|exact T].
  - unfold rank_text. apply (run_two _ _ Between [TMark "{"; TWord (lit "rank"); TMark "="; TWord (lit "same"); TMark ";"] Between (id_tokens ids ++ [TMark "}"; TMark ";"]) Between); [reflexivity|].
    apply run_ids; [do 2 eexists; split; reflexivity|reflexivity].
Qed.
End Boxes.
