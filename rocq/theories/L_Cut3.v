(** Proofs: loading the beginning of a dumped data file, the whole file. *)
From Coq Require Import Ascii String List ZArith Lia Bool.
From Verif Require Import Base Lists M_Text S_Svmlight L_Text M_Dataset S_Dataset L_Dataset L_Dataset2 M_Svmlight L_Reshape L_Svmlight L_Svmlight2 L_Svmlight3 S_Cut L_Cut L_Cut2.
Import ListNotations.
Local Open Scope Z_scope.

Lemma combine_nth {A B} (d : A) (qs : list A) (X : list B) : forall k, (length qs = k + length X)%nat ->
  combine (skipn k qs) X = map (fun p => (nth (fst p) qs d, snd p)) (combine (seq k (length X)) X).
Proof.
  induction X as [|x X IH]; intros k E.
  - destruct (skipn k qs); reflexivity.
  - cbn [length seq combine map fst snd] in *. rewrite <- (IH (S k)) by lia.
    assert (S : skipn k qs = nth k qs d :: skipn (S k) qs). { clear - E. revert k E. induction qs as [|q qs IH]; intros k E; [cbn in E; lia|]. destruct k; [reflexivity|]. cbn [skipn nth]. apply IH. cbn in E. lia. }
    rewrite S. reflexivity.
Qed.
Lemma firstn_combine' {A B} m (a : list A) (b : list B) : firstn m (combine a b) = combine (firstn m a) (firstn m b).
Proof. apply combine_firstn. Qed.
Lemma map_fst_firstn {A B} m (a : list A) (b : list B) : length a = length b -> map fst (firstn m (combine a b)) = firstn m a.
Proof. intros E. rewrite <- firstn_map. f_equal. apply map_fst_combine, E. Qed.
Lemma map_snd_firstn {A B} m (a : list A) (b : list B) : length a = length b -> map snd (firstn m (combine a b)) = firstn m b.
Proof. intros E. rewrite <- firstn_map. f_equal. apply map_snd_combine, E. Qed.
Lemma newlines_app a b : newlines (a ++ b) = (newlines a + newlines b)%nat.
Proof. unfold newlines. rewrite filter_app, app_length. reflexivity. Qed.
Lemma newlines_none t : ~ In newline t -> newlines t = 0%nat.
Proof.
  intros H. unfold newlines. induction t as [|c t IH]; [reflexivity|]. cbn [filter]. destruct (Ascii.eqb_spec newline c) as [<-|]; [exfalso; apply H; left; reflexivity|]. apply IH. intros I. apply H. right. exact I.
Qed.

Section File.
Context {V : Type} (F : fmt V) (num : V -> numtok).
Notation cell_prints := (cell_prints F num).
Notation label_prints := (label_prints F num).
Definition line_of (first : nat) (r : Z * V * list V) : text := line3 F first r.

Lemma dumped zb X (y : list V) qids : (1 < length X)%nat -> length y = length X -> length qids = length X -> int32_ids qids ->
  dump_svmlight_file F zb X y qids = Ok (concat (map (line3 F (first_id zb)) (combine (combine qids y) X))).
Proof.
  intros N Y Q I. rewrite dump_text; [|exact Y|intros _; exact Q|exact I]. do 2 f_equal. unfold dump_lines, line3.
  pose proof (combine_nth (0, vzero F) (combine qids y) X 0) as E. cbn [skipn] in E. rewrite E by (rewrite combine_length; lia). rewrite map_map. apply map_ext_in. intros (i & row) H. cbn [fst snd].
  apply in_combine_l, in_seq in H. rewrite List.combine_nth by lia. cbn [fst snd]. unfold opt_qid. replace (Nat.ltb 1 (length qids)) with true by (symmetry; apply Nat.ltb_lt; lia). reflexivity.
Qed.

Variables (first nf : nat) (L : list (Z * V * list V)).
Hypothesis (F1 : (first <= 1)%nat) (B : Z.of_nat (first + nf) < 2 ^ 31) (NF : (0 < nf)%nat) (GL : Forall (good_row F num first nf) L).

Lemma line_body3 r : In r L -> exists b, line3 F first r = b ++ [newline] /\ line_body b.
Proof.
  intros I. rewrite Forall_forall in GL. destruct (GL r I) as (P & C & Q & N). apply (line_text_body F num); [exact P|exact C|intros z [= <-]; exact Q|lia].
Qed.
Lemma newlines_lines m : newlines (concat (firstn m (map (line3 F first) L))) = Nat.min m (length L).
Proof.
  rewrite firstn_map. assert (H : forall l, (forall r, In r l -> In r L) -> newlines (concat (map (line3 F first) l)) = length l).
  { induction l as [|r l IH]; intros H; [reflexivity|]. cbn [map concat length]. rewrite newlines_app, IH by (intros; apply H; right; assumption).
    destruct (line_body3 r (H r (or_introl eq_refl))) as (b & -> & NL & _). rewrite newlines_app, (newlines_none b NL). reflexivity. }
  rewrite H by (intros r; apply In_firstn). rewrite firstn_length. reflexivity.
Qed.
Lemma file_text_last ls p : Forall (fun l => exists b, l = b ++ [newline] /\ line_body b) ls -> line_body p ->
  file_text (concat ls ++ p) (ls ++ match p with [] => [] | _ => [p] end).
Proof.
  intros H P. induction H as [|l ls (b & -> & Hb) _ IH].
  - cbn. destruct p as [|c p]; [constructor|]. apply file_last; [exact P|discriminate].
  - cbn [concat app]. rewrite <- !app_assoc. apply file_cons; assumption.
Qed.

Lemma load_shape f ls st M w : file_text f ls -> parse_lines F ls l_init = Ok st -> l_data st = concat M -> length (l_labels st) = length M -> M <> [] ->
  Forall (fun r => length r = w) M -> load_svmlight_file F f = Ok (w, map (map (clamp F)) M, l_labels st, l_qids st).
Proof.
  intros H P D N E W. unfold load_svmlight_file, parse_file. rewrite (file_lines_text _ _ H), P. cbn [bind]. rewrite D, N, (concat_length_const _ _ W).
  replace (Nat.eqb (length M) 0) with false by (symmetry; apply Nat.eqb_neq; destruct M; [congruence|discriminate]).
  assert (D' : Nat.div (length M * w) (length M) = w) by (rewrite Nat.mul_comm; apply Nat.div_mul; destruct M; [congruence|discriminate]).
  cbv zeta. rewrite D', Nat.eqb_refl. cbn [negb]. rewrite chunks_concat by exact W. reflexivity.
Qed.
Lemma load_fails f ls e : file_text f ls -> parse_lines F ls l_init = Err e -> load_svmlight_file F f = Err e.
Proof. intros H P. unfold load_svmlight_file, parse_file. rewrite (file_lines_text _ _ H), P. reflexivity. Qed.
Lemma clamp_row r : In r L -> map (clamp F) (snd r) = snd r.
Proof.
  intros I. rewrite Forall_forall in GL. destruct (GL r I) as (_ & C & _). rewrite <- (map_id (snd r)) at 2. apply map_ext_in. intros v H. rewrite Forall_forall in C. destruct (C v H) as (_ & _ & X). exact X.
Qed.
Lemma clamp_rows m : map (map (clamp F)) (map snd (firstn m L)) = map snd (firstn m L).
Proof. rewrite map_map. apply map_ext_in. intros r I. apply clamp_row, (In_firstn L m), I. Qed.
Lemma good_firstn m : Forall (good_row F num first nf) (firstn m L).
Proof. apply Forall_forall. intros r I. rewrite Forall_forall in GL. apply GL, (In_firstn L m), I. Qed.
Lemma firstn_lines m : Forall (fun l => exists b, l = b ++ [newline] /\ line_body b) (map (line3 F first) (firstn m L)).
Proof. apply Forall_map, Forall_forall. intros r I. apply line_body3, (In_firstn L m), I. Qed.
Lemma first_lines m : parse_lines F (map (line3 F first) (firstn m L)) l_init =
  Ok (mkL (concat (map snd (firstn m L))) (map (fun r => snd (fst r)) (firstn m L)) (map (fun r => fst (fst r)) (firstn m L)) (match firstn m L with [] => 0 | _ => Z.of_nat nf end)).
Proof. rewrite (full_lines F num first nf _ F1 B (good_firstn m) l_init); [reflexivity|left; reflexivity]. Qed.

(** A file of whole lines. *)
Lemma whole_lines m : (0 < m)%nat -> L <> [] -> load_svmlight_file F (concat (map (line3 F first) (firstn m L))) =
  Ok (nf, map snd (firstn m L), map (fun r => snd (fst r)) (firstn m L), map (fun r => fst (fst r)) (firstn m L)).
Proof.
  intros M N. erewrite load_shape; [|apply file_text_lines, firstn_lines|apply first_lines|reflexivity|cbn [l_labels]; rewrite !map_length; reflexivity| |].
  - cbn [l_labels l_qids]. rewrite clamp_rows. reflexivity.
  - destruct L; [congruence|]. destruct m; [lia|]. discriminate.
  - apply Forall_map. eapply Forall_impl; [|apply good_firstn]. intros r (_ & _ & _ & E). exact E.
Qed.

(** A file that ends inside a line. *)
Lemma last_line m p st : line_body p -> p <> [] -> parse_lines F (map (line3 F first) (firstn m L) ++ [p]) l_init = st ->
  parse_line F p (mkL (concat (map snd (firstn m L))) (map (fun r => snd (fst r)) (firstn m L)) (map (fun r => fst (fst r)) (firstn m L)) (match firstn m L with [] => 0 | _ => Z.of_nat nf end)) = st.
Proof.
  intros (NL & NN) NE <-. rewrite parse_lines_app, first_lines.
  - cbn [bind parse_lines]. unfold c_string. rewrite before_none by exact NN. rewrite is_nil_false by exact NE. destruct (parse_line F p _); reflexivity.
  - intros l I. apply in_map_iff in I as (r & <- & I). destruct (line_body3 r (In_firstn L m r I)) as (b & -> & _ & X). split.
    + intros Y. apply in_app_or in Y as [Y|[Y|[]]]; [exact (X Y)|discriminate].
    + destruct b; discriminate.
Qed.
Lemma begins_body p b : begins p (b ++ [newline]) -> p <> b ++ [newline] -> line_body b -> begins p b /\ line_body p.
Proof.
  intros H N (B1 & B2). apply begins_app in H as [(H & _)|(p' & -> & H)].
  - split; [exact H|]. destruct H as (r & ->). split; intros I; [apply B1|apply B2]; apply in_or_app; left; exact I.
  - apply begins_one in H as [-> | ->]; [|congruence]. rewrite app_nil_r. split; [exists []; rewrite app_nil_r; reflexivity|split; assumption].
Qed.

Theorem cut_file g : L <> [] -> begins g (concat (map (line3 F first) L)) ->
  let m := newlines g in
  (m <= length L)%nat /\
  (load_svmlight_file F g = Err RuntimeError \/
   g = [] /\ load_svmlight_file F g = Err ZeroDivisionError \/
   (0 < m)%nat /\ g = concat (map (line3 F first) (firstn m L)) /\
     load_svmlight_file F g = Ok (nf, map snd (firstn m L), map (fun r => snd (fst r)) (firstn m L), map (fun r => fst (fst r)) (firstn m L)) \/
   exists q y row w q' cells, nth_error L m = Some (q, y, row) /\
     load_svmlight_file F g = Ok (w, map snd (firstn m L) ++ [map (clamp F) cells], map (fun r => snd (fst r)) (firstn m L) ++ [y], map (fun r => fst (fst r)) (firstn m L) ++ [q']) /\
     length cells = w /\ (0 < m -> w = nf)%nat /\ (w <= nf)%nat /\ cut_cells F w row cells /\ cut_id F w q q' cells).
Proof.
  intros NE H. destruct (begins_concat _ _ H) as (m & p & E & M & X). rewrite map_length in M, X.
  assert (P : line_body p /\ newlines g = m).
  { assert (line_body p) as LB.
    { destruct X as [(-> & _)|(l & N & Bp & D)]; [split; intros []|]. rewrite nth_error_map in N. destruct (nth_error L m) as [r|] eqn:R; [|discriminate]. injection N as <-.
      destruct (line_body3 r (nth_error_In _ _ R)) as (b & Eb & LB). rewrite Eb in Bp, D. apply (begins_body p b Bp D LB). }
    split; [exact LB|]. rewrite E, newlines_app, newlines_lines, (newlines_none p (proj1 LB)). lia. }
  destruct P as (LB & NM). cbv zeta. rewrite NM. split; [exact M|]. rewrite firstn_map in E.
  destruct p as [|c p].
  - rewrite app_nil_r in E. destruct m as [|m].
    + right. left. cbn in E. subst g. split; [reflexivity|]. reflexivity.
    + right. right. left. split; [lia|]. split; [exact E|]. rewrite E. apply whole_lines; [lia|exact NE].
  - destruct X as [(X & _)|(l & N & Bp & D)]; [discriminate|]. rewrite nth_error_map in N. destruct (nth_error L m) as [((q & y) & row)|] eqn:R; [|discriminate]. injection N as <-.
    assert (G : good_row F num first nf (q, y, row)) by (rewrite Forall_forall in GL; apply GL, (nth_error_In _ _ R)). destruct G as (P & C & Q & W). cbn [fst snd] in P, C, Q, W.
    pose proof (file_text_last _ (c :: p) (firstn_lines m) LB) as FT. cbn iota in FT. rewrite <- E in FT.
    pose proof (last_line m (c :: p) _ LB ltac:(discriminate) eq_refl) as PL.
    set (st := mkL _ _ _ _) in PL. set (w0 := match firstn m L with [] => 0%nat | _ => nf end).
    assert (M0 : l_max st = Z.of_nat w0) by (unfold st, w0; cbn [l_max]; destruct (firstn m L); reflexivity).
    assert (W0 : (w0 = 0 \/ w0 = length row)%nat) by (unfold w0; destruct (firstn m L); auto).
    destruct (cut_line F num st w0 first q y row (c :: p) M0 W0 F1 P C Q ltac:(rewrite W; exact B) Bp) as [Z|(w & q' & cells & Z & LC & WW & WL & CC & CI)].
    + left. apply (load_fails g _ _ FT). exact (eq_trans (eq_sym PL) Z).
    + right. right. right. exists q, y, row, w, q', cells. rewrite W in WL.
      assert (MW : (0 < m -> w = nf)%nat). { intros M1. assert (W2 : w0 = nf) by (unfold w0; destruct L; [congruence|]; destruct m; [lia|reflexivity]). rewrite <- W2. apply WW. lia. }
      assert (ML : firstn m L <> [] -> (0 < m)%nat) by (destruct m; [intros Y; exfalso; apply Y; reflexivity|lia]).
      split; [reflexivity|]. split; [|auto 8].
      rewrite (load_shape g _ _ (map snd (firstn m L) ++ [cells]) w FT (eq_trans (eq_sym PL) Z)).
      * rewrite map_app, clamp_rows. reflexivity.
      * cbn [l_data st]. rewrite concat_app. cbn [concat]. rewrite app_nil_r. reflexivity.
      * unfold st. cbn [l_labels]. rewrite !app_length, !map_length. reflexivity.
      * destruct (map snd (firstn m L)); discriminate.
      * apply Forall_app. split; [|repeat constructor; exact LC]. apply Forall_map. destruct (firstn m L) as [|r0 l0] eqn:FL; [constructor|]. rewrite MW by (apply ML; discriminate).
        rewrite <- FL. eapply Forall_impl; [|apply good_firstn]. intros r (_ & _ & _ & Y). exact Y.
Qed.
End File.
