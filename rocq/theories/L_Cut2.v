(** Proofs: lines and files of which only the beginning was written. *)
From Coq Require Import Ascii String List ZArith Lia Bool.
From Verif Require Import Base Lists M_Text S_Svmlight L_Text M_Svmlight L_Svmlight L_Svmlight2 L_Svmlight3 S_Cut L_Cut.
Import ListNotations.
Local Open Scope Z_scope.

Section Cut.
Context {V : Type} (F : fmt V) (num : V -> numtok).
Notation cell_prints := (cell_prints F num).
Notation label_prints := (label_prints F num).

Lemma row_plain row : forall first, Forall cell_prints row -> Z.of_nat (first + length row) < 2 ^ 31 -> Forall plain (row_text F first row ++ [newline]).
Proof.
  induction row as [|v row IH]; intros first P B; [repeat constructor; discriminate|].
  inversion P as [|? ? Pv P']; subst. cbn [length] in B. rewrite row_text_cons, <- !app_assoc. unfold pair_text. cbn [fst snd].
  repeat (apply Forall_app; split); try (repeat constructor; discriminate).
  - eapply natural_plain. apply show_Z_natural. lia.
  - eapply numeral_plain. apply Pv.
  - specialize (IH (S first) P' ltac:(lia)). apply Forall_app in IH. apply IH.
Qed.
Lemma finish_fits st w cells y q : l_max st = Z.of_nat w -> (w = 0 \/ length cells <= w)%nat ->
  finish F st y q (l_data st ++ cells, Z.of_nat (1 + length cells)) =
  Ok (mkL (l_data st ++ cells ++ repeat (vzero F) (w - length cells)) (l_labels st ++ [y]) (l_qids st ++ [q]) (Z.of_nat (Nat.max w (length cells)))).
Proof.
  intros M W. unfold finish. rewrite M.
  assert (X : (0 <? Z.of_nat w) && (Z.of_nat w <? Z.max (Z.of_nat (1 + length cells)) (Z.of_nat w + 1) - 1) = false).
  { apply andb_false_iff. destruct W as [-> |W]; [left; reflexivity|right; apply Z.ltb_ge; lia]. }
  rewrite X. cbn [bind]. rewrite <- app_assoc. replace (Z.to_nat (Z.of_nat w + 1 - Z.of_nat (1 + length cells))) with (w - length cells)%nat by lia.
  do 2 f_equal. lia.
Qed.
Lemma full_line st w first q y row : l_max st = Z.of_nat w -> (w = 0 \/ w = length row)%nat -> (first <= 1)%nat ->
  label_prints y -> Forall cell_prints row -> - 2 ^ 31 <= q < 2 ^ 31 -> Z.of_nat (first + length row) < 2 ^ 31 ->
  parse_line F (line_text F first (Some q) y row) st = Ok (mkL (l_data st ++ row) (l_labels st ++ [y]) (l_qids st ++ [q]) (Z.of_nat (length row))).
Proof.
  intros M W L P C Q B. rewrite line_parts. rewrite (parse_head F num) by (assumption || apply row_plain; assumption).
  change 1 with (Z.of_nat 1). rewrite (full_row F num) by (assumption || lia).
  rewrite words_nil by (constructor; [right; right; left; reflexivity|constructor]). cbn [foldM bind].
  rewrite (finish_fits st w row y q M) by lia. replace (w - length row)%nat with 0%nat by lia. cbn [repeat]. rewrite app_nil_r. do 2 f_equal. lia.
Qed.

Lemma cut_qid_token p : begins p (lit "qid:") -> p <> [] -> words p = [p] /\ scan_qid p = None /\ scan_pair p = None.
Proof.
  intros B N. cbn in B. destruct B as (r & E). cbn in E.
  destruct p as [|a [|b [|c [|d [|e p]]]]]; [congruence| | | | |discriminate E]; cbn [app] in E; injection E; intros; subst; (split; [reflexivity|split; reflexivity]).
Qed.
Lemma qid_not_pair s : scan_pair (lit "qid:" ++ s) = None.
Proof. reflexivity. Qed.
(** Reading the beginning of an integer leaves nothing. *)
Lemma cut_int t q s : int_text t q -> begins s t -> scan_uint s = None \/ exists q', scan_uint s = Some (q', []).
Proof.
  intros (sg & neg & ds & -> & S & D & NE & _) B.
  assert (X : exists sg' neg' ds', s = sg' ++ ds' /\ sign_text sg' neg' /\ digits ds').
  { apply begins_app in B as [(B & _)|(s' & -> & B)]; [|exists sg, neg, s'; split; [reflexivity|]; split; [exact S|exact (begins_Forall _ _ _ B D)]].
    destruct S; [apply begins_nil in B; subst; exists [], false, []; repeat constructor| |]; (apply begins_one in B as [-> | ->]; [exists [], false, []; repeat constructor|]).
    - exists (lit "+"), false, []. repeat constructor.
    - exists (lit "-"), true, []. repeat constructor. }
  destruct X as (sg' & neg' & ds' & -> & S' & D'). unfold scan_uint.
  assert (K : skip_space (sg' ++ ds') = sg' ++ ds').
  { apply (stops_skip [] (sg' ++ ds')); [constructor|]. intros c r E. assert (A : Forall (fun c => ~ blank_char c) (sg' ++ ds')) by (apply Forall_app; split; [eapply sign_not_blank; exact S'|apply digits_not_blank, D']).
    rewrite E in A. inversion A; assumption. }
  rewrite K, (take_sign_text sg' neg' ds' S'); [|destruct ds' as [|c ds']; [exact I|]; inversion D'; subst; apply digit_not_sign; assumption].
  rewrite <- (app_nil_r ds'), digits_span by (exact D' || exact I). destruct (is_nil ds'); [left; reflexivity|right; eexists; reflexivity].
Qed.

Definition cells_of (w : nat) (row : list V) (j : nat) (c : list V) : list V := firstn j row ++ c ++ repeat (vzero F) (w - (j + length c)).
Lemma partly_length row j c : (j <= length row)%nat -> partly F row j c -> (j + length c <= length row)%nat.
Proof.
  intros J [-> |(v & t & n & E & _ & _ & ->)]; cbn [length]; [lia|]. assert (nth_error row j <> None) as X by congruence. apply nth_error_Some in X. lia.
Qed.
Lemma cells_cut w row j c : (j <= length row)%nat -> partly F row j c -> cut_cells F (Nat.max w (j + length c)) row (cells_of w row j c).
Proof.
  intros J P. exists j. split; [exact J|]. unfold cells_of. destruct P as [-> |(v & t & n & E & B & S & ->)]; cbn [length app].
  - left. f_equal. f_equal. lia.
  - right. exists v, t, n. split; [exact E|]. split; [exact B|]. split; [exact S|]. f_equal. f_equal. f_equal. lia.
Qed.
Theorem cut_line st w first q y row p : l_max st = Z.of_nat w -> (w = 0 \/ w = length row)%nat -> (first <= 1)%nat ->
  label_prints y -> Forall cell_prints row -> - 2 ^ 31 <= q < 2 ^ 31 -> Z.of_nat (first + length row) < 2 ^ 31 ->
  begins p (line_text F first (Some q) y row) ->
  parse_line F p st = Err RuntimeError \/
  exists w' q' cells, parse_line F p st = Ok (mkL (l_data st ++ cells) (l_labels st ++ [y]) (l_qids st ++ [q']) (Z.of_nat w')) /\
    length cells = w' /\ (w <> 0 -> w' = w)%nat /\ (w' <= length row)%nat /\ cut_cells F w' row cells /\ cut_id F w' q q' cells.
Proof.
  intros M W L P C Q B H. rewrite line_parts in H. pose proof (row_plain row first C B) as RP. pose proof (show_Z_int q Q) as QI.
  apply begins_app in H as [(H & _)|(p' & -> & H)].
  - (* the head *)
    unfold head in H. apply begins_app in H as [(H & _)|(p1 & -> & H)].
    + left. destruct p as [|c p]; [reflexivity|]. destruct P as (P & _).
      assert (A : Forall plain (c :: p)) by (eapply begins_Forall; [exact H|eapply numeral_plain; exact P]).
      rewrite parse_line_eq; [|discriminate|intros (x & X); injection X as -> _; inversion A as [|? ? A1 _]; subst; destruct A1; congruence].
      cbv zeta. rewrite before_none by (apply plain_no_hash, A). destruct (cut_label _ _ _ P H) as [-> |(n' & ->)]; [reflexivity|]. destruct (rd_label F n'); reflexivity.
    + destruct p1 as [|c p1].
      { left. rewrite app_nil_r. pose proof (parse_after_label F num y [] st P ltac:(constructor) ltac:(repeat split)) as X. rewrite app_nil_r in X. exact X. }
      destruct H as (r & E). injection E as <- E. assert (H : begins p1 (lit "qid:" ++ show_Z q ++ lit " ")) by (exists r; exact E). clear E.
      assert (PL : Forall plain (lit " " ++ p1)).
      { apply Forall_app. split; [repeat constructor; discriminate|]. eapply begins_Forall; [exact H|]. repeat (apply Forall_app; split); [repeat constructor; discriminate|eapply int_plain; exact QI|repeat constructor; discriminate]. }
      change (" "%char :: p1) with (lit " " ++ p1). rewrite (parse_after_label F num) by (assumption || (repeat split; reflexivity || exact I)). rewrite words_blanks by apply space_blanks.
      apply begins_app in H as [(H & NE)|(s & -> & H)].
      * left. destruct p1 as [|c1 p1']; [reflexivity|]. destruct (cut_qid_token _ H ltac:(discriminate)) as (-> & -> & S). cbn [foldM]. unfold feature_step. rewrite S. reflexivity.
      * assert (NB : forall s, begins s (show_Z q) -> word (lit "qid:" ++ s)).
        { intros s0 B0. split; [discriminate|]. apply Forall_app. split; [apply not_blank_lit; reflexivity|]. eapply begins_Forall; [exact B0|].
          destruct QI as (sg & neg & ds & -> & Hs & Hd & _). apply Forall_app. split; [eapply sign_not_blank; exact Hs|apply digits_not_blank, Hd]. }
        assert (E : exists s', begins s' (show_Z q) /\ words (lit "qid:" ++ s) = [lit "qid:" ++ s']).
        { apply begins_app in H as [(H & _)|(s' & -> & H)].
          - exists s. split; [exact H|]. rewrite <- (app_nil_r (lit "qid:" ++ s)) at 1. rewrite words_tok; [reflexivity|apply NB, H|exact I].
          - exists (show_Z q). split; [exists []; rewrite app_nil_r; reflexivity|]. rewrite app_assoc, words_tok; [|apply NB; exists []; rewrite app_nil_r; reflexivity|apply begins_one in H as [-> | ->]; reflexivity || exact I].
            rewrite words_nil; [reflexivity|]. apply begins_one in H as [-> | ->]; [constructor|apply space_blanks]. }
        destruct E as (s' & B' & ->). cbn [foldM].
        assert (SQ : scan_qid (lit "qid:" ++ s') = match scan_uint s' with Some (q', _) => Some q' | None => None end) by reflexivity. rewrite SQ.
        destruct (cut_int _ _ _ QI B') as [N|(q' & N)]; rewrite N.
        -- left. cbn [foldM]. unfold feature_step. rewrite qid_not_pair. reflexivity.
        -- right. cbn [foldM bind].
           pose proof (finish_fits st w [] y q' M ltac:(cbn [length]; lia)) as FF. rewrite app_nil_r in FF. cbn [length app] in FF. rewrite Nat.sub_0_r, Nat.max_0_r in FF.
           exists w, q', (repeat (vzero F) w).
           split; [exact FF|]. split; [apply repeat_length|]. split; [auto|]. split; [lia|]. split.
           ++ exists 0%nat. split; [lia|]. left. cbn [firstn app]. rewrite Nat.sub_0_r. reflexivity.
           ++ right. split; [reflexivity|]. exists s'. auto.
  - assert (PP : Forall plain p') by (eapply begins_Forall; [exact H|exact RP]).
    rewrite (parse_head F num) by assumption. change 1 with (Z.of_nat 1).
    destruct (cut_row F num row first 1 (l_data st) p' C B L H) as [-> |(j & c & J & PA & ->)]; [left; reflexivity|right]. cbn [bind].
    pose proof (partly_length row j c J PA) as JL. assert (LC : length (firstn j row ++ c) = (j + length c)%nat) by (rewrite app_length, firstn_length; lia).
    replace (Z.of_nat (1 + j + length c)) with (Z.of_nat (1 + length (firstn j row ++ c))) by lia.
    rewrite (finish_fits st w _ y q M) by lia. exists (Nat.max w (j + length c)), q, (cells_of w row j c). rewrite LC, <- app_assoc.
    split; [reflexivity|]. split; [unfold cells_of; rewrite !app_length, firstn_length, repeat_length; lia|]. split; [lia|]. split; [lia|].
    split; [apply cells_cut; assumption|left; reflexivity].
Qed.

(** ** Files *)
Definition line3 (first : nat) (r : Z * V * list V) : text := line_text F first (Some (fst (fst r))) (snd (fst r)) (snd r).
Definition good_row (first nf : nat) (r : Z * V * list V) : Prop :=
  label_prints (snd (fst r)) /\ Forall cell_prints (snd r) /\ - 2 ^ 31 <= fst (fst r) < 2 ^ 31 /\ length (snd r) = nf.
Lemma full_lines first nf L : (first <= 1)%nat -> Z.of_nat (first + nf) < 2 ^ 31 -> Forall (good_row first nf) L ->
  forall st, (l_max st = 0 \/ l_max st = Z.of_nat nf) ->
  parse_lines F (map (line3 first) L) st =
  Ok (mkL (l_data st ++ concat (map snd L)) (l_labels st ++ map (fun r => snd (fst r)) L) (l_qids st ++ map (fun r => fst (fst r)) L)
      (match L with [] => l_max st | _ => Z.of_nat nf end)).
Proof.
  intros L1 B H. induction H as [|r L (P & C & Q & N) _ IH]; intros st M.
  - cbn. rewrite !app_nil_r. destruct st. reflexivity.
  - cbn [map parse_lines]. destruct (line_text_body F num first (Some (fst (fst r))) (snd (fst r)) (snd r) P C) as (b & E & NL & NN); [intros z [= <-]; exact Q|lia|].
    assert (X : c_string (line3 first r) = line3 first r). { apply before_none. unfold line3. rewrite E. intros I. apply in_app_or in I as [I|[I|[]]]; [exact (NN I)|discriminate]. }
    rewrite X. replace (is_nil (line3 first r)) with false by (unfold line3; rewrite E; destruct b; reflexivity).
    unfold line3 at 1. rewrite (full_line st (if l_max st =? 0 then 0 else nf)) by (try assumption; try lia; destruct (Z.eqb_spec (l_max st) 0); lia). cbn [bind].
    rewrite IH by (cbn [l_max]; right; lia). cbn [l_data l_labels l_qids l_max concat]. rewrite <- !app_assoc. cbn [app]. rewrite N. destruct L; reflexivity.
Qed.
Lemma begins_concat {A} (ls : list (list A)) : forall g, begins g (concat ls) ->
  exists m p, g = concat (firstn m ls) ++ p /\ (m <= length ls)%nat /\ ((p = [] /\ m = length ls) \/ exists l, nth_error ls m = Some l /\ begins p l /\ p <> l).
Proof.
  induction ls as [|l ls IH]; intros g H.
  - apply begins_nil in H as ->. exists 0%nat, []. split; [reflexivity|]. split; [cbn; lia|]. left. auto.
  - cbn [concat] in H. apply begins_app in H as [(H & N)|(g' & -> & H)].
    + exists 0%nat, g. split; [reflexivity|]. split; [cbn; lia|]. right. exists l. auto.
    + destruct (IH g' H) as (m & p & -> & M & X). exists (S m), p. cbn [firstn concat length nth_error]. rewrite <- app_assoc. split; [reflexivity|]. split; [lia|].
      destruct X as [(-> & ->)|X]; [left; auto|right; exact X].
Qed.
End Cut.
