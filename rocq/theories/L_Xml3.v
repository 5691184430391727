(** Proofs for C87: documents, and files cut short. *)
From Coq Require Import Ascii String List ZArith Lia Bool.
From Verif Require Import Base Lists M_Text M_Loaders M_Xml S_Xml L_Xml L_Xml2.
Import ListNotations.
Local Open Scope Z_scope.

(** Blanks and comments around the root *)
Definition no_misc (r : text) : Prop := (forall c u, r = c :: u -> ~ xblank c) /\ forall u, r <> lit "<!--" ++ u.
Lemma misc_blanks : forall w t, xblanks w -> misc_text t -> misc_text (w ++ t).
Proof. induction 1 as [|c w B _ IH]; intros H; [exact H|]. cbn [app]. apply misc_blank; auto. Qed.
Lemma misc_some : forall f t r, misc f t = Some r -> exists s, t = s ++ r /\ misc_text s.
Proof.
  induction f as [|f IH]; intros t r H; [discriminate H|]. cbn [misc] in H. destruct (skip_xspace_some t) as (w & E & B & _).
  destruct (eat (lit "<!--") (skip_xspace t)) as [z|] eqn:E1.
  - apply eat_some in E1. destruct (comment z) as [r2|] eqn:K; [|discriminate H]. destruct (comment_some _ _ K) as (b & -> & F & N). destruct (IH _ _ H) as (s & -> & M).
    exists (w ++ (lit "<!--" ++ b ++ lit "-->") ++ s). split; [rewrite E, E1, <- !app_assoc; reflexivity|]. apply misc_blanks; [exact B|]. apply misc_comment; [exists b; auto|exact M].
  - injection H as <-. exists w. split; [exact E|]. rewrite <- (app_nil_r w). apply misc_blanks; [exact B|constructor].
Qed.
Lemma misc_step : forall f c t, xblank c -> misc f (c :: t) = misc f t.
Proof.
  intros [|f] c t B; [reflexivity|]. cbn [misc]. replace (skip_xspace (c :: t)) with (skip_xspace t); [reflexivity|].
  unfold skip_xspace. cbn [span]. apply xspace_iff in B. rewrite B. destruct (span xspace t). reflexivity.
Qed.
Lemma misc_app : forall s, misc_text s -> forall f r, no_misc r -> (length s < f)%nat -> misc f (s ++ r) = Some r.
Proof.
  induction 1 as [|c t B _ IH|s t (b & -> & F & N) _ IH]; intros f r NM L.
  - destruct f as [|f]; [cbn in L; lia|]. cbn [app misc]. destruct NM as [N1 N2]. pose proof (skip_xspace_app [] r (Forall_nil _) N1) as S. cbn [app] in S. rewrite S. rewrite eat_none by exact N2. reflexivity.
  - cbn [app length] in *. rewrite misc_step by exact B. apply IH; [exact NM|lia].
  - destruct f as [|f]; [cbn in L; lia|]. rewrite <- !app_assoc. cbn [misc].
    pose proof (skip_xspace_app [] (lit "<!--" ++ b ++ lit "-->" ++ t ++ r) (Forall_nil _)) as S. cbn [app] in S. rewrite S; [|intros c u E; injection E as <- _; apply xspace_no; reflexivity].
    rewrite (eat_app (lit "<!--")), comment_app by assumption. apply IH; [exact NM|]. rewrite !app_length in L. cbn [lit list_ascii_of_string length] in L. lia.
Qed.

(** The declaration *)
Lemma declaration_some : forall t r, declaration t = Some r -> exists d, t = d ++ r /\ declaration_text d.
Proof.
  intros t r H. unfold declaration in H. destruct (eat (lit "<?xml") t) as [[|c u]|] eqn:E; [discriminate H| |injection H as <-; exists []; split; [reflexivity|left; reflexivity]].
  apply eat_some in E. subst t. destruct (xspace c) eqn:B; [|discriminate H]. destruct (declaration_end_some _ _ H) as (b & -> & F & N).
  exists (lit "<?xml" ++ [c] ++ b ++ lit "?>"). split; [rewrite <- !app_assoc; reflexivity|]. right. exists c, b. split; [reflexivity|]. split; [apply xspace_iff, B|]. auto.
Qed.
Lemma declaration_app : forall d r, declaration_text d -> (forall u, r <> lit "<?xml" ++ u) -> declaration (d ++ r) = Some r.
Proof.
  intros d r [-> |(c & b & -> & B & F & N)] H; unfold declaration.
  - cbn [app]. rewrite eat_none by exact H. reflexivity.
  - rewrite <- !app_assoc, eat_app. cbn [app]. apply xspace_iff in B. rewrite B. apply declaration_end_app; assumption.
Qed.

(** Documents *)
Lemma element_no_misc : forall s x r, element_text s x -> no_misc (s ++ r).
Proof.
  intros s x r H. destruct (element_begin s x H) as (c & u & -> & SC). split.
  - intros d v E. injection E as <- _. apply xspace_no. reflexivity.
  - intros v E. injection E as -> _. eapply not_inner; [|apply start_inner, SC]. cbn; tauto.
Qed.
Lemma misc_no_declaration : forall m s x r u, misc_text m -> element_text s x -> m ++ s ++ r <> lit "<?xml" ++ u.
Proof.
  intros m s x r u M ET E. destruct (element_begin s x ET) as (c & v & -> & SC). destruct M as [|d t B _|k t (b & -> & _ & _) _].
  - injection E as -> _. eapply not_inner; [|apply start_inner, SC]. cbn; tauto.
  - injection E as -> _. apply xspace_iff in B. discriminate B.
  - discriminate E.
Qed.
Definition front_text (front : text) : Prop := exists d m, front = d ++ m /\ declaration_text d /\ misc_text m.
(** Up to the end of the root. *)
Definition read_front (t : text) : option (xml * text) :=
  opt t1 <- declaration t; opt t2 <- misc (S (length t1)) t1; opt t3 <- eat (lit "<") t2; element_with (content (S (length t3))) t3.
Lemma read_document_front : forall t, read_document t = opt (x, t4) <- read_front t; opt t5 <- misc (S (length t4)) t4; if is_nil t5 then Some x else None.
Proof.
  intros t. unfold read_document, read_front. destruct (declaration t) as [t1|]; [|reflexivity]. destruct (misc (S (length t1)) t1) as [t2|]; [|reflexivity]. destruct (eat (lit "<") t2); reflexivity.
Qed.
Lemma front_app : forall front root x r, front_text front -> element_text root x -> read_front (front ++ root ++ r) = Some (x, r).
Proof.
  intros front root x r (d & m & -> & D & M) ET. unfold read_front. rewrite <- app_assoc. rewrite declaration_app; [|exact D|intros u; apply (misc_no_declaration m root x r u M ET)].
  rewrite misc_app; [|exact M|apply (element_no_misc root x r ET)|rewrite !app_length; lia].
  destruct (element_app root x ET (length root) r) as (s' & E & H); [lia|]. rewrite E, <- app_assoc, eat_app.
  destruct (element_app root x ET (S (length (s' ++ r))) r) as (s2 & E2 & H2).
  - rewrite E, !app_length. cbn. lia.
  - assert (s2 = s') by (rewrite E in E2; apply app_inv_head in E2; auto). subst s2. exact H2.
Qed.
Lemma front_some : forall t x r, read_front t = Some (x, r) -> exists front root, t = front ++ root ++ r /\ front_text front /\ element_text root x.
Proof.
  intros t x r H. unfold read_front in H. destruct (declaration t) as [t1|] eqn:D; [|discriminate H]. destruct (declaration_some _ _ D) as (d & -> & DT).
  destruct (misc (S (length t1)) t1) as [t2|] eqn:M; [|discriminate H]. destruct (misc_some _ _ _ M) as (m & -> & MT). destruct (eat (lit "<") t2) as [t3|] eqn:E; [|discriminate H]. apply eat_some in E. subst t2.
  destruct (element_some _ (content_some _) _ _ _ H) as (s & Q & ET). exists (d ++ m), s. split; [rewrite Q, <- !app_assoc; reflexivity|]. split; [exists d, m; auto|exact ET].
Qed.
Lemma no_misc_nil : no_misc []. Proof. split; intros; discriminate. Qed.
Lemma read_document_iff : forall t x, read_document t = Some x <-> exists front root back, document_parts t front root back x.
Proof.
  intros t x. rewrite read_document_front. split.
  - intros H. destruct (read_front t) as [[y t4]|] eqn:F; [|discriminate H]. destruct (misc (S (length t4)) t4) as [t5|] eqn:M; [|discriminate H]. destruct t5 as [|c t5]; [|discriminate H]. injection H as <-.
    destruct (front_some _ _ _ F) as (front & root & -> & FT & ET). destruct (misc_some _ _ _ M) as (s & -> & MT). rewrite app_nil_r. exists front, root, s. split; [reflexivity|]. auto.
  - intros (front & root & back & -> & FT & ET & MT). rewrite (front_app front root x back FT ET). pose proof (misc_app back MT (S (length back)) [] no_misc_nil ltac:(lia)) as M. rewrite app_nil_r in M. rewrite M. reflexivity.
Qed.

(** Ends of lines *)
Lemma cr_code : forall c, code c = 13 <-> c = ascii_of_nat 13.
Proof. intros c. split; [intros H; apply code_char; rewrite H; reflexivity|intros ->; reflexivity]. Qed.
Lemma lf_code : forall c, code c = 10 <-> c = newline.
Proof. intros c. split; [intros H; apply code_char; rewrite H; reflexivity|intros ->; reflexivity]. Qed.
Lemma end_of_lines_read : forall n t, (length t <= n)%nat -> lines_read t (end_of_lines t).
Proof.
  induction n as [|n IH]; intros t L; [destruct t; [constructor|cbn in L; lia]|]. destruct t as [|c t]; [constructor|]. cbn [length] in L. cbn [end_of_lines].
  destruct (Z.eqb_spec (code c) 13) as [E|E]; [|apply lr_other; [intros X; apply E, cr_code, X|apply IH; lia]]. apply cr_code in E. subst c. destruct t as [|d t].
  - apply lr_alone; [discriminate|constructor].
  - destruct (Z.eqb_spec (code d) 10) as [F|F].
    + apply lf_code in F. subst d. apply lr_pair, IH. cbn [length] in L. lia.
    + apply lr_alone; [intros r [= -> _]; apply F; reflexivity|]. apply IH. lia.
Qed.
Lemma lines_read_is : forall t u, lines_read t u -> end_of_lines t = u.
Proof.
  induction 1 as [|t u _ IH|t u N _ IH|c t u N _ IH]; [reflexivity| | |].
  - cbn. rewrite IH. reflexivity.
  - change (match t with d :: r' => if code d =? 10 then newline :: end_of_lines r' else newline :: end_of_lines t | [] => [newline] end = newline :: u).
    destruct t as [|d t]; [rewrite <- IH; reflexivity|]. destruct (Z.eqb_spec (code d) 10) as [E|E]; [apply lf_code in E; contradiction (N t); rewrite E; reflexivity|]. rewrite IH. reflexivity.
  - cbn [end_of_lines]. destruct (Z.eqb_spec (code c) 13) as [E|E]; [apply cr_code in E; contradiction|]. rewrite IH. reflexivity.
Qed.
Theorem reader_grammar : forall t x, read_xml t = Some x <-> xml_document t x.
Proof.
  intros t x. unfold read_xml, xml_document. rewrite read_document_iff. split.
  - intros (front & root & back & H). exists (end_of_lines t), front, root, back. split; [apply (end_of_lines_read (length t)); lia|exact H].
  - intros (u & front & root & back & L & H). apply lines_read_is in L. subst u. exists front, root, back. exact H.
Qed.
Lemma document_unique : forall t x y, xml_document t x -> xml_document t y -> x = y.
Proof. intros t x y H1 H2. apply reader_grammar in H1. apply reader_grammar in H2. congruence. Qed.

(** Files cut short *)
Lemma cut_document : forall t front root back x p s, document_parts t front root back x -> t = p ++ s -> (length p < length (front ++ root))%nat -> read_document p = None.
Proof.
  intros t front root back x p s (E & FT & ET & _) -> L. destruct (read_document p) as [y|] eqn:R; [|reflexivity]. exfalso. apply read_document_iff in R as (front' & root' & back' & E' & FT' & ET' & _).
  pose proof (front_app front root x back FT ET) as H1. pose proof (front_app front' root' y (back' ++ s) FT' ET') as H2. rewrite <- E in H1. replace (front' ++ root' ++ back' ++ s) with (p ++ s) in H2 by (rewrite E', <- !app_assoc; reflexivity).
  rewrite H1 in H2. injection H2 as _ H2. apply (f_equal (@length ascii)) in E. apply (f_equal (@length ascii)) in E'. apply (f_equal (@length ascii)) in H2. rewrite !app_length in *. lia.
Qed.
Lemma end_of_lines_prefix : forall n p s, (length p <= n)%nat -> exists s', end_of_lines (p ++ s) = end_of_lines p ++ s'.
Proof.
  induction n as [|n IH]; intros p s L; [destruct p; [eexists; reflexivity|cbn in L; lia]|]. destruct p as [|c p]; [eexists; reflexivity|]. cbn [length] in L. cbn [app end_of_lines].
  destruct (code c =? 13) eqn:E; [|destruct (IH p s ltac:(lia)) as (s' & ->); exists s'; reflexivity]. destruct p as [|d p].
  - cbn [app]. destruct s as [|d s]; [exists []; reflexivity|]. destruct (code d =? 10); eexists; reflexivity.
  - cbn [app]. destruct (code d =? 10).
    + destruct (IH p s ltac:(cbn [length] in L; lia)) as (s' & ->). exists s'. reflexivity.
    + destruct (IH (d :: p) s ltac:(lia)) as (s' & E'). cbn [app] in E'. rewrite E'. exists s'. reflexivity.
Qed.
Theorem cut_file : forall t u front root back x p s v, lines_read t u -> document_parts u front root back x -> t = p ++ s -> lines_read p v -> (length v < length (front ++ root))%nat -> read_xml p = None.
Proof.
  intros t u front root back x p s v LT D -> LP L. apply lines_read_is in LT. apply lines_read_is in LP. unfold read_xml. rewrite LP. destruct (end_of_lines_prefix (length p) p s (le_n _)) as (s' & E). rewrite LT, LP in E.
  apply (cut_document u front root back x v s' D E L).
Qed.
