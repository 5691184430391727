(** Proofs: data sets by path or by stream. *)
From Coq Require Import Ascii String List ZArith Lia Bool.
From Verif Require Import Base Lists M_Text M_Svmlight S_Svmlight L_Text M_Dataset S_Dataset L_Svmlight2 M_Files S_Files S_Nul L_Nul.
Import ListNotations.
Local Open Scope Z_scope.

(** ** splitext *)
Lemma rfind_none c p : ~ In c p -> forall i last, rfind_from i c p last = last.
Proof.
  induction p as [|x p IH]; intros H i last; cbn [rfind_from]; [reflexivity|].
  destruct (Ascii.eqb_spec x c) as [->|_]; [destruct H; left; reflexivity|]. apply IH. intros B. apply H. right. exact B.
Qed.
Lemma rfind_last c a b : ~ In c b -> forall i last, rfind_from i c (a ++ c :: b) last = i + Z.of_nat (length a).
Proof.
  intros H. induction a as [|x a IH]; intros i last; cbn [app rfind_from length].
  - rewrite Ascii.eqb_refl, rfind_none by exact H. lia.
  - rewrite IH. lia.
Qed.
Lemma last_of c (p : text) : ~ In c p \/ exists a b, p = a ++ c :: b /\ ~ In c b.
Proof.
  induction p as [|x p IH]; [left; intros []|]. destruct IH as [H|(a & b & -> & H)].
  - destruct (ascii_dec x c) as [->|D]; [right; exists [], p; auto|]. left. intros [B|B]; auto.
  - right. exists (x :: a), b. auto.
Qed.
Lemma firstn_exact {A} (a b : list A) : firstn (length a) (a ++ b) = a.
Proof. rewrite firstn_app, firstn_all, Nat.sub_diag. cbn. apply app_nil_r. Qed.
Lemma skipn_exact {A} (a b : list A) : skipn (length a) (a ++ b) = b.
Proof. rewrite skipn_app, skipn_all, Nat.sub_diag. reflexivity. Qed.
(** The directory, and the name. *)
Definition dir (d : text) : Prop := d = [] \/ exists d', d = d' ++ lit "/".
Lemma path_parts p : exists d n, p = d ++ n /\ dir d /\ ~ In "/"%char n.
Proof.
  destruct (last_of "/" p) as [H|(a & b & -> & H)]; [exists [], p; repeat split; auto; left; reflexivity|].
  exists (a ++ lit "/"), b. rewrite <- app_assoc. repeat split; auto. right. exists a. reflexivity.
Qed.
Lemma rfind_dir d n : dir d -> ~ In "/"%char n -> rfind "/" (d ++ n) = Z.of_nat (length d) - 1.
Proof.
  intros [->|[d' ->]] H; unfold rfind.
  - cbn [app]. rewrite rfind_none by exact H. reflexivity.
  - rewrite <- app_assoc. cbn [lit list_ascii_of_string app]. rewrite rfind_last by exact H. rewrite app_length. cbn [length]. lia.
Qed.
Lemma ext_dir d n : dir d -> ~ In "/"%char n -> splitext (d ++ n) = splitext n.
Proof.
  intros D H. unfold splitext. rewrite rfind_dir by assumption.
  assert (S0 : rfind "/" n = -1) by (unfold rfind; apply rfind_none; exact H). rewrite S0.
  destruct (last_of "." n) as [N|(a & b & -> & N)].
  - assert (rfind "." n = -1) as -> by (unfold rfind; apply rfind_none; exact N). cbn [Z.ltb Z.compare].
    destruct (Z.ltb_spec (Z.of_nat (length d) - 1) (rfind "." (d ++ n))) as [L|L]; [|reflexivity].
    exfalso. destruct (last_of "." d) as [M|(u & v & -> & M)].
    + unfold rfind in L. rewrite rfind_none in L by (rewrite in_app_iff; tauto). lia.
    + unfold rfind in L. replace ((u ++ "."%char :: v) ++ n) with (u ++ "."%char :: (v ++ n)) in L by (rewrite <- app_assoc; reflexivity).
      rewrite rfind_last in L by (rewrite in_app_iff; tauto). rewrite app_length in L. cbn [length] in L.
      assert (v <> []). { intros ->. destruct D as [D|[d' D]]; [destruct u; discriminate D|]. apply app_inj_tail in D as [_ D]. discriminate D. }
      destruct v; [auto|]. cbn [length] in L. lia.
  - assert (E1 : rfind "." (a ++ "."%char :: b) = Z.of_nat (length a)) by (unfold rfind; rewrite rfind_last by exact N; lia).
    assert (E2 : rfind "." (d ++ a ++ "."%char :: b) = Z.of_nat (length d + length a)).
    { unfold rfind. rewrite app_assoc, rfind_last by exact N. rewrite app_length. lia. }
    rewrite E1, E2. replace (Z.of_nat (length d) - 1 <? Z.of_nat (length d + length a)) with true by (symmetry; apply Z.ltb_lt; lia).
    replace (-1 <? Z.of_nat (length a)) with true by (symmetry; apply Z.ltb_lt; lia).
    replace (Z.to_nat (Z.of_nat (length d) - 1 + 1)) with (length d) by lia.
    replace (Z.to_nat (Z.of_nat (length d + length a) - (Z.of_nat (length d) - 1 + 1))) with (length a) by lia.
    replace (Z.to_nat (Z.of_nat (length a) - (-1 + 1))) with (length a) by lia. change (Z.to_nat (-1 + 1)) with 0%nat. cbn [skipn].
    rewrite skipn_exact, !Nat2Z.id. rewrite (skipn_app (length d + length a)), (skipn_all2 d) by lia. cbn [app]. replace (length d + length a - length d)%nat with (length a) by lia. reflexivity.
Qed.
Lemma ext_name n : ~ In "/"%char n ->
  (~ In "."%char n /\ splitext n = []) \/
  exists a b, n = a ++ "."%char :: b /\ ~ In "."%char b /\
    splitext n = (if existsb (fun c => negb (Ascii.eqb c ".")) a then "."%char :: b else []).
Proof.
  intros H. unfold splitext. assert (rfind "/" n = -1) as -> by (unfold rfind; apply rfind_none; exact H).
  destruct (last_of "." n) as [N|(a & b & -> & N)]; [left|right].
  - split; [exact N|]. unfold rfind. rewrite rfind_none by exact N. reflexivity.
  - exists a, b. repeat split; auto. unfold rfind. rewrite rfind_last by exact N. rewrite Z.add_0_l.
    replace (-1 <? Z.of_nat (length a)) with true by (symmetry; apply Z.ltb_lt; lia).
    change (Z.to_nat (-1 + 1)) with 0%nat. cbn [skipn]. replace (Z.to_nat (Z.of_nat (length a) - (-1 + 1))) with (length a) by lia.
    rewrite ?Z.sub_0_r, ?Nat2Z.id, (firstn_exact a), (skipn_exact a). reflexivity.
Qed.
Lemma some_char a : existsb (fun c => negb (Ascii.eqb c ".")) a = true <-> exists c, In c a /\ c <> "."%char.
Proof.
  rewrite existsb_exists. split; intros (c & H1 & H2); exists c; (split; [exact H1|]).
  - intros ->. discriminate H2.
  - destruct (Ascii.eqb_spec c "."); [contradiction|reflexivity].
Qed.
Lemma last_split (c : ascii) (a b a' b' : text) : ~ In c b -> ~ In c b' -> a ++ c :: b = a' ++ c :: b' -> a = a' /\ b = b'.
Proof.
  revert a'. induction a as [|x a IH]; intros [|x' a'] H H' E; cbn [app] in E.
  - injection E as ->. auto.
  - injection E as -> ->. exfalso. apply H. apply in_or_app. right. left. reflexivity.
  - injection E as -> <-. exfalso. apply H'. apply in_or_app. right. left. reflexivity.
  - injection E as -> E2. destruct (IH a' H H' E2) as [-> ->]. auto.
Qed.
Theorem splitext_named s p : ~ In "/"%char s -> ~ In "."%char s -> (splitext p = "."%char :: s <-> named ("."%char :: s) p).
Proof.
  intros S1 S2. split.
  - intros E. destruct (path_parts p) as (d & n & -> & D & N). rewrite ext_dir in E by assumption.
    destruct (ext_name n N) as [[_ X]|(a & b & -> & B & X)]; [congruence|]. rewrite X in E.
    destruct (existsb _ a) eqn:A; [|discriminate E]. injection E as ->. apply some_char in A as (c & C1 & C2).
    exists d, a, c. repeat split; auto. intros Y. apply N, in_or_app. left. exact Y.
  - intros (d & b & c & -> & D & Nb & C1 & C2).
    assert (N : ~ In "/"%char (b ++ "."%char :: s)) by (rewrite in_app_iff; intros [Y|[Y|Y]]; [auto|discriminate Y|auto]).
    rewrite ext_dir by assumption. destruct (ext_name (b ++ "."%char :: s) N) as [[X _]|(a & b' & E & B & ->)].
    + destruct X. apply in_or_app. right. left. reflexivity.
    + apply last_split in E as [<- <-]; [|exact S2|exact B].
      replace (existsb (fun c => negb (Ascii.eqb c ".")) b) with true by (symmetry; apply some_char; eauto). reflexivity.
Qed.

(** ** Files *)
Lemma text_eqb_eq a b : text_eqb a b = true <-> a = b.
Proof. unfold text_eqb. destruct (list_eq_dec ascii_dec a b); split; intros; congruence. Qed.
Section Files.
Context (gz bz : codec).
Theorem codec_gz p : named (lit ".gz") p -> codec_of gz bz p = gz.
Proof. intros H. apply (splitext_named (lit "gz")) in H; [|cbn; intuition discriminate|cbn; intuition discriminate]. unfold codec_of. rewrite H. reflexivity. Qed.
Theorem codec_bz p : named (lit ".bz2") p -> codec_of gz bz p = bz.
Proof. intros H. apply (splitext_named (lit "bz2")) in H; [|cbn; intuition discriminate|cbn; intuition discriminate]. unfold codec_of. rewrite H. reflexivity. Qed.
Theorem codec_plain p : ~ named (lit ".gz") p -> ~ named (lit ".bz2") p -> codec_of gz bz p = plain.
Proof.
  intros H1 H2. unfold codec_of. destruct (text_eqb (splitext p) (lit ".gz")) eqn:E1.
  - destruct H1. apply (splitext_named (lit "gz")); [cbn; intuition discriminate|cbn; intuition discriminate|]. apply text_eqb_eq. exact E1.
  - destruct (text_eqb (splitext p) (lit ".bz2")) eqn:E2; [|reflexivity].
    destruct H2. apply (splitext_named (lit "bz2")); [cbn; intuition discriminate|cbn; intuition discriminate|]. apply text_eqb_eq. exact E2.
Qed.
Lemma codec_faithful p : faithful gz -> faithful bz -> faithful (codec_of gz bz p).
Proof. intros G B. unfold codec_of. destruct (text_eqb _ (lit ".gz")); [exact G|]. destruct (text_eqb _ (lit ".bz2")); [exact B|]. intros t. reflexivity. Qed.

Context {V : Type} (F : fmt V).
Lemma write_read p t w : faithful gz -> faithful bz -> read_path gz bz (write_path gz bz w p t) p = Ok t.
Proof.
  intros G B. unfold read_path, write_path, upd. cbn [files]. replace (text_eqb p p) with true by (symmetry; apply text_eqb_eq; reflexivity).
  rewrite (codec_faithful p G B). reflexivity.
Qed.
Lemma write_other p t w : same_but_file p w (write_path gz bz w p t).
Proof.
  split; [|split; reflexivity]. intros q H. unfold write_path, upd. cbn [files]. destruct (text_eqb q p) eqn:E; [|reflexivity].
  apply text_eqb_eq in E. contradiction.
Qed.
Theorem C101_dump_load_lemma (num : V -> numtok) nf (X : list (list V)) y ids d junk p w : faithful gz -> faithful bz ->
  built nf X y ids d -> (2 <= length X)%nat -> (0 < nf)%nat -> Forall (fun r => length r = nf) X ->
  length junk = length ids -> Forall (label_prints F num) y -> Forall (Forall (cell_prints F num)) X ->
  Z.of_nat (length X * S nf) < 2 ^ 31 ->
  exists w', dataset_dump gz bz F w true (Path p) junk d = (w', Ok tt) /\ same_but_file p w w' /\
    dataset_load gz bz F w' true (Path p) = (w', Ok d).
Proof.
  intros G B H1 H2 H3 H4 H5 H6 H7 H8. destruct (C14_dataset_lemma F num nf X y ids d junk H1 H2 H3 H4 H5 H6 H7 H8) as (f & E1 & E2).
  exists (write_path gz bz w p f). unfold dataset_dump, dump_source. unfold ds_dump in E1. rewrite E1.
  split; [reflexivity|]. split; [apply write_other|]. unfold dataset_load, load_source. rewrite write_read by assumption.
  cbn [bind]. f_equal. unfold ds_load in E2. exact E2.
Qed.
(** Loading a path changes nothing and reads the decoded file. *)
Theorem path_load w p t : read_path gz bz w p = Ok t -> load_source gz bz F w (Path p) = (w, load_svmlight_file F t).
Proof. intros E. cbn [load_source]. rewrite E. reflexivity. Qed.
Theorem paths_twice w p x : load_source gz bz F w (Path p) = (w, Ok x) -> forall n,
  load_sources gz bz F w (repeat (Path p) (S n)) = (w, Ok (repeat x (S n))).
Proof.
  intros E n. unfold load_sources. cbn [repeat]. change (Path p :: repeat (Path p) n) with (repeat (Path p) (S n)).
  change (x :: repeat x n) with (repeat x (S n)). induction (S n) as [|k IH]; [reflexivity|].
  cbn [repeat load_rest]. rewrite E, IH. reflexivity.
Qed.

(** ** Streams *)
Lemma lines_concat t : forall cur, concat (lines_from cur t) = rev cur ++ t.
Proof.
  induction t as [|c t IH]; intros cur; cbn [lines_from].
  - destruct cur as [|x cur]; [reflexivity|]. cbn [is_nil concat]. rewrite !app_nil_r. reflexivity.
  - destruct (Ascii.eqb c newline); cbn [concat]; rewrite IH; cbn [rev app]; rewrite <- ?app_assoc; reflexivity.
Qed.
Definition visible_line (l : text) : Prop := is_nil (c_string l) = false.
Lemma read_all ls : forall st st', Forall visible_line ls -> parse_lines F ls st = Ok st' -> read_lines F ls st = [].
Proof.
  induction ls as [|l ls IH]; intros st st' H E; [reflexivity|]. inversion H as [|? ? H1 H2]; subst. cbn [parse_lines read_lines] in *. rewrite H1 in *.
  destruct (parse_line F (c_string l) st) as [s|]; [|discriminate E]. cbn [bind] in E. eapply IH; eauto.
Qed.
Lemma read_stop a l r : forall st st', Forall visible_line a -> is_nil (c_string l) = true -> parse_lines F a st = Ok st' ->
  read_lines F (a ++ l :: r) st = r /\ parse_lines F (a ++ l :: r) st = Ok st'.
Proof.
  induction a as [|x a IH]; intros st st' H L E; cbn [app].
  - cbn [parse_lines read_lines] in *. rewrite L. auto.
  - inversion H as [|? ? H1 H2]; subst. cbn [parse_lines read_lines] in *. rewrite H1 in *.
    destruct (parse_line F (c_string x) st) as [s|]; [|discriminate E]. cbn [bind] in *. apply IH; auto.
Qed.
Lemma visible_text t : ~ In nul t -> Forall visible_line (file_lines t).
Proof.
  intros H. apply Forall_forall. intros l Hl. unfold visible_line.
  assert (S : ~ In nul l). { intros B. apply H. unfold file_lines in Hl. pose proof (lines_concat t []) as C. cbn [rev app] in C. rewrite <- C. apply in_concat. eauto. }
  unfold c_string. rewrite before_none by exact S.
  assert (forall t cur, In [] (lines_from cur t) -> False) as NE.
  { clear. induction t as [|c t IH]; intros cur; cbn [lines_from].
    - destruct cur as [|x cur]; cbn [is_nil]; [intros []|]. intros [B|[]]. cbn [rev] in B. destruct (rev cur); discriminate B.
    - destruct (Ascii.eqb c newline); [|apply IH]. intros [B|B]; [cbn [rev] in B; destruct (rev cur); discriminate B|]. eapply IH; exact B. }
  destruct l; [destruct (NE _ _ Hl)|reflexivity].
Qed.
Lemma load_parse t x : load_svmlight_file F t = Ok x -> exists st, parse_lines F (file_lines t) l_init = Ok st.
Proof. unfold load_svmlight_file, parse_file. destruct (parse_lines F (file_lines t) l_init); [eauto|discriminate]. Qed.
Lemma empty_load : load_svmlight_file F [] = Err ZeroDivisionError.
Proof. reflexivity. Qed.
Theorem stream_load w h : snd (load_source gz bz F w (Stream h)) = load_svmlight_file F (unread w h) /\
  same_but_stream h w (fst (load_source gz bz F w (Stream h))).
Proof.
  split; [reflexivity|]. split; [reflexivity|]. intros k H. cbn [load_source fst unread written]. unfold upd.
  destruct (Nat.eqb_spec k h); [contradiction|auto].
Qed.
Theorem stream_exhausted w h x : ~ In nul (unread w h) -> snd (load_source gz bz F w (Stream h)) = Ok x ->
  unread (fst (load_source gz bz F w (Stream h))) h = [] /\
  snd (load_source gz bz F (fst (load_source gz bz F w (Stream h))) (Stream h)) = Err ZeroDivisionError /\
  snd (load_sources gz bz F w [Stream h; Stream h]) = Err ZeroDivisionError.
Proof.
  intros N E. assert (R : unread (fst (load_source gz bz F w (Stream h))) h = []).
  { cbn [load_source fst unread]. unfold upd. rewrite Nat.eqb_refl. destruct (load_parse _ _ E) as (st & P).
    rewrite (read_all _ _ st (visible_text _ N) P). reflexivity. }
  split; [exact R|]. split.
  - destruct (stream_load (fst (load_source gz bz F w (Stream h))) h) as [-> _]. rewrite R. apply empty_load.
  - unfold load_sources. cbn [load_rest]. destruct (load_source gz bz F w (Stream h)) as [w1 r1] eqn:E1. cbn [snd fst] in *. subst r1.
    destruct (load_source gz bz F w1 (Stream h)) as [w2 r2] eqn:E2. pose proof (stream_load w1 h) as [S _]. rewrite E2 in S. cbn [snd] in S. rewrite S, R, empty_load. reflexivity.
Qed.
Theorem stream_parts w h a c r x : unread w h = a ++ nul :: c ++ newline :: r -> whole_lines a -> ~ In nul a -> inside c ->
  load_svmlight_file F a = Ok x ->
  snd (load_source gz bz F w (Stream h)) = Ok x /\ unread (fst (load_source gz bz F w (Stream h))) h = r.
Proof.
  intros U A N C E. cbn [load_source fst snd unread]. unfold upd. rewrite Nat.eqb_refl, U.
  destruct (load_parse _ _ E) as (st & P).
  assert (L : file_lines (a ++ nul :: c ++ newline :: r) = file_lines a ++ (nul :: c ++ [newline]) :: file_lines r).
  { rewrite (lines_app a _ A). f_equal. change (nul :: c ++ newline :: r) with ((nul :: c) ++ newline :: r). rewrite lines_inside; [reflexivity|].
    intros [B|B]; [discriminate B|exact (C B)]. }
  destruct (read_stop (file_lines a) (nul :: c ++ [newline]) (file_lines r) l_init st (visible_text _ N) eq_refl P) as [R1 R2].
  split.
  - rewrite <- E. unfold load_svmlight_file, parse_file. rewrite L.
    match goal with |- bind ?x _ = _ => replace x with (Ok st) by (symmetry; exact R2) end. rewrite P. reflexivity.
  - rewrite L. transitivity (concat (file_lines r)); [f_equal; exact R1|]. apply (lines_concat r []).
Qed.
End Files.
