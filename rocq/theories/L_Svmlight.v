(** Loading svmlight text: lines (C11), files (C13). *)
From Coq Require Import Ascii String List ZArith Lia Bool Sorted.
From Verif Require Import Base Lists M_Text M_Dataset M_Svmlight S_Svmlight L_Text L_Reshape.
Import ListNotations.
Local Open Scope Z_scope.

(** ** No '#', newline or NUL in the data part of a line *)
Definition plain (c : ascii) : Prop := c <> "#"%char /\ c <> nul.

Ltac in_cases H := unfold digit_char, blank_char in H;
  cbn [lit list_ascii_of_string In map] in H;
  repeat (destruct H as [<-|H]; [first [discriminate | split; discriminate]|]); destruct H.

Lemma digit_plain c : digit_char c -> plain c.
Proof. intros H. in_cases H. Qed.
Lemma blank_plain c : blank_char c -> plain c.
Proof. intros H. in_cases H. Qed.
Lemma digits_plain t : digits t -> Forall plain t.
Proof. intros H. eapply Forall_impl; [|exact H]. exact digit_plain. Qed.
Lemma blanks_plain t : blanks t -> Forall plain t.
Proof. intros H. eapply Forall_impl; [|exact H]. exact blank_plain. Qed.
Lemma sign_plain t n : sign_text t n -> Forall plain t.
Proof. intros H. destruct H; repeat constructor; discriminate. Qed.
Lemma exponent_plain t n : exponent_text t n -> Forall plain t.
Proof.
  intros H. destruct H as [|c sg neg ds Hc Hs Hd]; [constructor|]. constructor.
  - cbn in Hc. destruct Hc as [<-|[<-|[]]]; split; discriminate.
  - apply Forall_app. split; [eapply sign_plain; eauto|apply digits_plain; auto].
Qed.
Lemma numeral_plain t n : numeral t n -> Forall plain t.
Proof.
  intros H. destruct H as [sg neg ip dot fp ex e Hs Hi Hf Hn Hd He].
  repeat (apply Forall_app; split); eauto using sign_plain, digits_plain, exponent_plain.
  destruct Hd as [->|[-> _]]; repeat constructor; discriminate.
Qed.
Lemma natural_plain t n : natural t n -> Forall plain t.
Proof. intros [H _]. apply digits_plain, H. Qed.
Lemma int_plain t n : int_text t n -> Forall plain t.
Proof.
  intros (sg & neg & ds & -> & Hs & Hd & _). apply Forall_app.
  split; [eapply sign_plain; eauto|apply digits_plain, Hd].
Qed.
Lemma pairs_plain t ps : pairs_text t ps -> Forall plain t.
Proof.
  intros H. induction H as [|w tf f tv v rest ps Hw Hne Hf Hv Hr IH]; [constructor|].
  repeat (apply Forall_app; split); eauto using blanks_plain, natural_plain, numeral_plain.
  repeat constructor; discriminate.
Qed.
Lemma qid_plain t q : qid_text t q -> Forall plain t.
Proof.
  intros H. destruct H as [|w tq q Hw Hne Hq]; [constructor|].
  repeat (apply Forall_app; split); eauto using blanks_plain, int_plain.
  repeat constructor; discriminate.
Qed.

Lemma plain_no_hash t : Forall plain t -> ~ In "#"%char t.
Proof. intros H Hin. rewrite Forall_forall in H. apply H in Hin. destruct Hin. congruence. Qed.

(** ** Tokens *)
Lemma word_of_digits t r : digits t -> t <> [] -> Forall (fun c => ~ blank_char c) r -> word (t ++ r).
Proof.
  intros H Hne Hr. split; [destruct t; [congruence|discriminate]|].
  apply Forall_app. split; [|exact Hr]. eapply Forall_impl; [|exact H]. intros c. apply digit_not_blank.
Qed.
Lemma not_blank_lit s : forallb (fun c => negb (is_space c)) (lit s) = true ->
  Forall (fun c => ~ blank_char c) (lit s).
Proof.
  intros H. rewrite forallb_forall in H. apply Forall_forall. intros c Hc.
  apply H in Hc. apply negb_true_iff in Hc. apply is_space_false. exact Hc.
Qed.
Lemma sign_not_blank t n : sign_text t n -> Forall (fun c => ~ blank_char c) t.
Proof. intros H. destruct H; [constructor|apply not_blank_lit; reflexivity..]. Qed.
Lemma digits_not_blank t : digits t -> Forall (fun c => ~ blank_char c) t.
Proof. intros H. eapply Forall_impl; [|exact H]. intros c. apply digit_not_blank. Qed.
Lemma exponent_not_blank t n : exponent_text t n -> Forall (fun c => ~ blank_char c) t.
Proof.
  intros H. destruct H as [|c sg neg ds Hc Hs Hd]; [constructor|]. constructor.
  - apply is_space_false. cbn in Hc. destruct Hc as [<-|[<-|[]]]; reflexivity.
  - apply Forall_app. split; [eapply sign_not_blank; eauto|apply digits_not_blank; auto].
Qed.
Lemma numeral_not_blank t n : numeral t n -> Forall (fun c => ~ blank_char c) t.
Proof.
  intros H. destruct H as [sg neg ip dot fp ex e Hs Hi Hf Hn Hd He].
  repeat (apply Forall_app; split); eauto using sign_not_blank, digits_not_blank, exponent_not_blank.
  destruct Hd as [->|[-> _]]; [apply not_blank_lit; reflexivity|constructor].
Qed.

Lemma scan_pair_ok tf f tv v : natural tf f -> numeral tv v ->
  scan_pair (tf ++ lit ":" ++ tv) = Some (f, v).
Proof.
  intros Hf Hv. unfold scan_pair. rewrite (scan_uint_natural tf f); [|exact Hf|reflexivity].
  cbn [lit list_ascii_of_string app]. rewrite (scan_double_numeral tv v Hv). reflexivity.
Qed.
Lemma scan_qid_ok tq q : int_text tq q -> scan_qid (lit "qid:" ++ tq) = Some q.
Proof.
  intros H. unfold scan_qid. cbn [lit list_ascii_of_string app strip Ascii.eqb Bool.eqb].
  rewrite <- (app_nil_r tq). rewrite (scan_uint_int tq q); auto. exact I.
Qed.
Lemma scan_qid_pair tf f r : natural tf f -> scan_qid (tf ++ r) = None.
Proof.
  intros (H & Hne & _). destruct tf as [|c tf]; [congruence|]. inversion H as [|? ? Hc _]; subst.
  unfold scan_qid. cbn [app]. unfold digit_char in Hc. cbn [lit list_ascii_of_string In] in Hc.
  repeat (destruct Hc as [<-|Hc]; [reflexivity|]). destruct Hc.
Qed.

Lemma stops_blank w r : blanks w -> w <> [] -> stops is_word_char (w ++ r) /\ after_number (w ++ r).
Proof.
  intros H Hne. destruct w as [|c w]; [congruence|]. inversion H as [|? ? Hc _]; subst.
  cbn [app]. unfold after_number. cbn [stops]. unfold blank_char in Hc. cbn [map In] in Hc.
  repeat (destruct Hc as [<-|Hc]; [repeat split; reflexivity|]). destruct Hc.
Qed.

Lemma pairs_start t ps w : pairs_text t ps -> blanks w ->
  stops is_word_char (t ++ w) /\ after_number (t ++ w).
Proof.
  intros H Hw. destruct H as [|w' tf f tv v rest ps Hw' Hne].
  - cbn [app]. destruct w as [|c w]; [repeat split|].
    rewrite <- (app_nil_r (c :: w)). apply stops_blank; [exact Hw|discriminate].
  - rewrite <- app_assoc. apply stops_blank; auto.
Qed.

Lemma pairs_words t ps w : pairs_text t ps -> blanks w ->
  Forall2 (fun tok p => scan_pair tok = Some p /\ scan_qid tok = None) (words (t ++ w)) ps.
Proof.
  intros H Hw. induction H as [|w' tf f tv v rest ps Hw' Hne Hf Hv Hr IH].
  - cbn [app]. rewrite words_nil by exact Hw. constructor.
  - rewrite <- !app_assoc. rewrite words_blanks by exact Hw'.
    replace (tf ++ lit ":" ++ tv ++ rest ++ w) with ((tf ++ lit ":" ++ tv) ++ rest ++ w)
      by (rewrite <- !app_assoc; reflexivity).
    rewrite words_tok.
    + constructor; [|exact IH]. split; [apply scan_pair_ok; auto|eapply scan_qid_pair; eauto].
    + destruct Hf as (H1 & H2 & _). apply word_of_digits; auto. apply Forall_app.
      split; [apply not_blank_lit; reflexivity|eapply numeral_not_blank; eauto].
    + apply (pairs_start rest ps w); auto.
Qed.

Section Load.
Context {V : Type} (F : fmt V).

(** ** The loop on the features of a line *)
Lemma widest_cons f v ps : widest ((f, v) :: ps) = Nat.max (Z.to_nat f) (widest ps).
Proof. reflexivity. Qed.
Lemma widest_in ps p : In p ps -> (Z.to_nat (fst p) <= widest ps)%nat.
Proof.
  induction ps as [|q ps IH]; [intros []|]. intros [->|H]; destruct q as [f v] || idtac.
  - destruct p as [f v]. rewrite widest_cons. cbn [fst]. lia.
  - rewrite widest_cons. apply IH in H. lia.
Qed.
Lemma cell_absent ps j : (forall p, In p ps -> fst p <> j) -> cell F ps j = vzero F.
Proof.
  intros H. unfold cell. destruct (find _ ps) as [p|] eqn:E; [|reflexivity].
  apply find_some in E as [E1 E2]. apply Z.eqb_eq in E2. exfalso. eapply H; eauto.
Qed.
Lemma cell_head f v ps : cell F ((f, v) :: ps) f = rd_value F v.
Proof. unfold cell. cbn [find fst]. rewrite Z.eqb_refl. reflexivity. Qed.
Lemma cell_tail f v ps j : f <> j -> cell F ((f, v) :: ps) j = cell F ps j.
Proof. intros H. unfold cell. cbn [find fst]. apply Z.eqb_neq in H. rewrite H. reflexivity. Qed.

Lemma map_zeros {A} (g : A -> V) l : (forall x, In x l -> g x = vzero F) -> map g l = repeat (vzero F) (length l).
Proof.
  induction l as [|x l IH]; intros H; [reflexivity|]. cbn [map length repeat].
  rewrite H by (left; reflexivity). rewrite IH; [reflexivity|]. intros y Hy. apply H. right. exact Hy.
Qed.

(** The effect of the loop on already scanned pairs. *)
Definition pair_step (s : list V * Z) (p : Z * numtok) : list V * Z :=
  (fst s ++ repeat (vzero F) (Z.to_nat (fst p - snd s)) ++ [rd_value F (snd p)],
   Z.max (snd s) (fst p) + 1).

Lemma features_pairs toks ps : Forall2 (fun tok p => scan_pair tok = Some p /\ scan_qid tok = None) toks ps ->
  forall s, foldM (feature_step F) toks s = Ok (fold_left pair_step ps s).
Proof.
  intros H. induction H as [|tok [f v] toks ps [Ht _] _ IH]; intros [data next]; [reflexivity|].
  cbn [foldM fold_left]. unfold feature_step at 1. rewrite Ht. cbn [bind]. rewrite IH. reflexivity.
Qed.

Lemma pairs_placed ps : forall data next,
  fold_left pair_step ps (data, next) = fold_left pair_step (placed next ps) (data, next).
Proof.
  induction ps as [|[f v] ps IH]; intros data next; [reflexivity|].
  cbn [placed fold_left]. unfold pair_step at 2 4. cbn [fst snd].
  replace (Z.to_nat (Z.max next f - next)) with (Z.to_nat (f - next)) by lia.
  replace (Z.max next (Z.max next f)) with (Z.max next f) by lia. apply IH.
Qed.

Lemma placed_ge ps : forall next, Forall (fun p => next <= fst p) (placed next ps).
Proof.
  induction ps as [|[f v] ps IH]; intros next; [constructor|]. cbn [placed]. constructor; [cbn [fst]; lia|].
  eapply Forall_impl; [|apply IH]. cbn beta. intros; lia.
Qed.
Lemma placed_sorted ps : forall next, StronglySorted Z.lt (map fst (placed next ps)).
Proof.
  induction ps as [|[f v] ps IH]; intros next; [constructor|]. cbn [placed map fst]. constructor; [apply IH|].
  apply Forall_map. eapply Forall_impl; [|apply placed_ge]. cbn beta. intros; lia.
Qed.
Lemma placed_id ps : forall next, StronglySorted Z.lt (map fst ps) -> Forall (fun p => next <= fst p) ps ->
  placed next ps = ps.
Proof.
  induction ps as [|[f v] ps IH]; intros next Hs Hn; [reflexivity|]. cbn [placed].
  inversion Hn as [|? ? Hf Hn']; subst. cbn [fst] in Hf. cbn [map fst] in Hs.
  apply StronglySorted_inv in Hs as [Hs Hlt]. replace (Z.max next f) with f by lia.
  rewrite IH; [reflexivity|exact Hs|]. rewrite Forall_map in Hlt. eapply Forall_impl; [|exact Hlt].
  cbn beta. intros; lia.
Qed.
Lemma placed_nil ps next : placed next ps = [] <-> ps = [].
Proof. destruct ps as [|[f v] ps]; cbn [placed]; split; congruence. Qed.

Lemma pairs_fold ps : forall data k, StronglySorted Z.lt (map fst ps) -> Forall (fun p => Z.of_nat k < fst p) ps ->
  fold_left pair_step ps (data, Z.of_nat (S k))
  = (data ++ map (fun j => cell F ps (Z.of_nat j)) (seq (S k) (widest ps - k)),
     Z.of_nat (S (Nat.max k (widest ps)))).
Proof.
  induction ps as [|[f v] ps IH]; intros data k Hs Hk.
  - cbn [fold_left widest map fold_right seq Nat.sub]. rewrite app_nil_r, Nat.max_0_r. reflexivity.
  - cbn [fold_left]. unfold pair_step at 2. cbn [fst snd].
    cbn [map fst] in Hs. apply StronglySorted_inv in Hs as [Hs Hlt].
    inversion Hk as [|? ? Hf Hk']; subst. cbn [fst] in Hf.
    set (n := Z.to_nat f). assert (Hn : f = Z.of_nat n) by (unfold n; lia).
    replace (Z.max (Z.of_nat (S k)) f + 1) with (Z.of_nat (S n)) by lia.
    assert (Hgt : Forall (fun p : Z * numtok => Z.of_nat n < fst p) ps).
    { apply Forall_forall. intros p Hp. rewrite Forall_forall in Hlt. rewrite <- Hn.
      apply Hlt. apply in_map. exact Hp. }
    rewrite IH; [|exact Hs|exact Hgt].
    rewrite widest_cons. fold n. f_equal; [|f_equal; f_equal; lia].
    rewrite <- app_assoc. f_equal. rewrite <- app_assoc.
    assert (Hw : widest ps = 0%nat \/ (n < widest ps)%nat).
    { destruct ps as [|q ps]; [left; reflexivity|]. right. inversion Hgt as [|? ? Hq _].
      pose proof (widest_in (q :: ps) q (or_introl eq_refl)). lia. }
    replace (Nat.max n (widest ps) - k)%nat with ((n - k - 1) + (1 + (widest ps - n)))%nat by lia.
    rewrite seq_app, map_app. f_equal.
    + rewrite map_zeros.
      * rewrite seq_length. f_equal. lia.
      * intros j Hj. apply in_seq in Hj. apply cell_absent. intros p [<-|Hp].
        -- cbn [fst]. lia.
        -- rewrite Forall_forall in Hgt. apply Hgt in Hp. lia.
    + replace (S k + (n - k - 1))%nat with n by lia. cbn [Nat.add seq map app].
      rewrite Hn at 1. rewrite cell_head. f_equal.
      apply map_ext_in'. intros j Hj. apply in_seq in Hj. symmetry. apply cell_tail. lia.
Qed.

Lemma features_fold toks ps : Forall2 (fun tok p => scan_pair tok = Some p /\ scan_qid tok = None) toks ps ->
  forall data, foldM (feature_step F) toks (data, 1)
  = Ok (data ++ map (fun j => cell F (placed 1 ps) (Z.of_nat j)) (seq 1 (widest (placed 1 ps))),
        Z.of_nat (S (widest (placed 1 ps)))).
Proof.
  intros H data. rewrite (features_pairs toks ps H), pairs_placed.
  pose proof (pairs_fold (placed 1 ps) data 0) as HP. change (Z.of_nat 1) with 1 in HP.
  rewrite HP; [|apply placed_sorted|].
  - rewrite Nat.sub_0_r. reflexivity.
  - eapply Forall_impl; [|apply placed_ge]. cbn beta. intros; lia.
Qed.

Lemma dense_length w ps : length (dense F w ps) = w.
Proof. unfold dense. rewrite map_length, seq_length. reflexivity. Qed.

Lemma dense_pad w k ps : (widest ps <= w)%nat ->
  dense F w ps ++ repeat (vzero F) k = dense F (w + k) ps.
Proof.
  intros H. unfold dense. rewrite seq_app, map_app. f_equal. symmetry. rewrite map_zeros.
  - rewrite seq_length. reflexivity.
  - intros j Hj. apply in_seq in Hj. apply cell_absent. intros p Hp E.
    apply widest_in in Hp. rewrite E, Nat2Z.id in Hp. lia.
Qed.

(** ** C11 *)

Lemma parse_line_eq line st : line <> [] -> ~ comment_line line ->
  parse_line F line st =
    let body := before "#" line in
    match istream_float body with
    | None => Err RuntimeError
    | Some (yn, rest) =>
      match rd_label F yn with
      | None => Err RuntimeError
      | Some y =>
        match words rest with
        | [] => Err RuntimeError
        | tok :: toks =>
          let '(qids, feats) := match scan_qid tok with
                                | Some q => (l_qids st ++ [q], toks)
                                | None => (l_qids st, tok :: toks)
                                end in
          do s <- foldM (feature_step F) feats (l_data st, 1);
          let '(data, next) := s in
          let max := l_max st in
          let data1 := data ++ repeat (vzero F) (Z.to_nat (max + 1 - next)) in
          let next1 := Z.max next (max + 1) in
          do data2 <- (if (0 <? max) && (max <? next1 - 1)
                       then reshape_data F data1 max (next1 - 1) else Ok data1);
          Ok (mkL data2 (l_labels st ++ [y]) qids (Z.max (next1 - 1) max))
        end
      end
    end.
Proof.
  intros Hne Hc. destruct line as [|c line]; [congruence|].
  assert (Hh : c <> "#"%char) by (intros ->; apply Hc; exists line; reflexivity).
  unfold parse_line. all_chars c; try reflexivity. exfalso. apply Hh. reflexivity.
Qed.

Lemma data_line_facts l e : data_line l e ->
  l <> [] /\ ~ comment_line l /\
  exists rest, istream_float (before "#" l) = Some (en_label e, rest) /\
    (exists toks, Forall2 (fun tok p => scan_pair tok = Some p /\ scan_qid tok = None) toks (en_pairs e) /\
      match en_qid e with
      | Some q => exists tok, words rest = tok :: toks /\ scan_qid tok = Some q
      | None => words rest = toks /\ toks <> []
      end).
Proof.
  intros H. destruct H as [w0 ty y tq q tp ps w1 cmt Hw0 Hty Hq Hp Hw1 Hsome Hcmt].
  cbn [en_label en_qid en_pairs].
  assert (Hhead : exists c t, w0 ++ ty = c :: t /\ c <> "#"%char).
  { pose proof (numeral_plain _ _ Hty) as Hpl. pose proof (blanks_plain _ Hw0) as Hpl0.
    destruct (w0 ++ ty) as [|c t] eqn:E.
    - apply app_eq_nil in E as [_ ->]. destruct (numeral_head _ _ Hty) as (sg & neg & r & _ & E & Hr).
      symmetry in E. apply app_eq_nil in E as [_ ->].
      destruct Hr as [(c & r' & E & _)|(c & r' & E & _)]; discriminate.
    - exists c, t. split; [reflexivity|]. assert (Hin : In c (w0 ++ ty)) by (rewrite E; left; reflexivity).
      apply in_app_or in Hin. rewrite Forall_forall in Hpl, Hpl0.
      destruct Hin as [Hin|Hin]; [apply Hpl0 in Hin|apply Hpl in Hin]; destruct Hin; auto. }
  destruct Hhead as (c & t & E & Hc).
  assert (El : w0 ++ ty ++ tq ++ tp ++ w1 ++ cmt = c :: t ++ tq ++ tp ++ w1 ++ cmt)
    by (rewrite (app_assoc w0 ty), E; reflexivity).
  split; [rewrite El; discriminate|].
  split; [rewrite El; intros [x Hx]; congruence|].
  exists (tq ++ tp ++ w1).
  replace (w0 ++ ty ++ tq ++ tp ++ w1 ++ cmt) with ((w0 ++ ty ++ tq ++ tp ++ w1) ++ cmt)
    by (rewrite <- !app_assoc; reflexivity).
  rewrite before_app; [|apply plain_no_hash; repeat (apply Forall_app; split);
    eauto using blanks_plain, numeral_plain, qid_plain, pairs_plain|exact Hcmt].
  pose proof (pairs_start tp ps w1 Hp Hw1) as [S1 S2].
  split.
  - apply istream_float_numeral; auto. destruct Hq as [|w tq q Hw Hne Hq]; [exact S2|].
    rewrite <- !app_assoc. apply stops_blank; auto.
  - pose proof (pairs_words tp ps w1 Hp Hw1) as HF. exists (words (tp ++ w1)). split; [exact HF|].
    destruct Hq as [|w tq q Hw Hne Hq].
    + cbn [app]. split; [reflexivity|]. destruct Hsome as [Hs|Hs]; [congruence|].
      intros E0. rewrite E0 in HF. inversion HF; subst. congruence.
    + exists (lit "qid:" ++ tq). split; [|apply scan_qid_ok; exact Hq].
      rewrite <- app_assoc. rewrite words_blanks by exact Hw.
      rewrite words_tok; [reflexivity| |exact S1].
      split; [discriminate|]. apply Forall_app. split; [apply not_blank_lit; reflexivity|].
      destruct Hq as (sg & neg & ds & -> & Hsg & Hds & _). apply Forall_app.
      split; [eapply sign_not_blank; eauto|apply digits_not_blank, Hds].
Qed.

Theorem C11_lemma l e st M w y :
  data_line l e -> rd_label F (en_label e) = Some y ->
  holds M w st -> (w = 0%nat -> M = [] \/ en_pairs e = []) -> (w <> 0%nat -> M <> []) ->
  Z.of_nat (length M * Nat.max w (widest (en_cols e))) < 2 ^ 31 ->
  exists st', parse_line F l st = Ok st' /\
    l_labels st' = l_labels st ++ [y] /\
    l_qids st' = l_qids st ++ somes [en_qid e] /\
    holds (map (fun r => r ++ repeat (vzero F) (Nat.max w (widest (en_cols e)) - w)) M
           ++ [dense F (Nat.max w (widest (en_cols e))) (en_cols e)])
          (Nat.max w (widest (en_cols e))) st'.
Proof.
  intros Hl Hy (Hd & Hrows & Hmax) Hw0 HwM Hsz.
  destruct (data_line_facts l e Hl) as (Hne & Hnc & rest & Hfl & toks & HF & Hq).
  rewrite parse_line_eq by assumption. cbn zeta. rewrite Hfl, Hy.
  set (ps := en_cols e) in *. set (W := widest ps) in *.
  pose proof (features_fold toks _ HF (l_data st)) as Hfold'. fold (en_cols e) in Hfold'. fold ps in Hfold'. fold W in Hfold'.
  change (map (fun j => cell F ps (Z.of_nat j)) (seq 1 W)) with (dense F W ps) in Hfold'.
  rewrite Hd in Hfold'.
  assert (Hgoal : exists d2, (if (0 <? Z.of_nat w) && (Z.of_nat w <? Z.max (Z.of_nat (S W)) (Z.of_nat w + 1) - 1)
       then reshape_data F ((concat M ++ dense F W ps) ++ repeat (vzero F) (Z.to_nat (Z.of_nat w + 1 - Z.of_nat (S W))))
              (Z.of_nat w) (Z.max (Z.of_nat (S W)) (Z.of_nat w + 1) - 1)
       else Ok ((concat M ++ dense F W ps) ++ repeat (vzero F) (Z.to_nat (Z.of_nat w + 1 - Z.of_nat (S W)))))
       = Ok d2 /\
       d2 = concat (map (fun r => r ++ repeat (vzero F) (Nat.max w W - w)) M ++ [dense F (Nat.max w W) ps])).
  { replace (Z.to_nat (Z.of_nat w + 1 - Z.of_nat (S W))) with (w - W)%nat by lia.
    rewrite <- app_assoc, dense_pad by (unfold W; lia).
    replace (W + (w - W))%nat with (Nat.max w W) by lia.
    rewrite concat_app. cbn [concat]. rewrite app_nil_r.
    destruct ((0 <? Z.of_nat w) && (Z.of_nat w <? Z.max (Z.of_nat (S W)) (Z.of_nat w + 1) - 1)) eqn:E.
    - apply andb_prop in E as [E1 E2]. apply Z.ltb_lt in E1. apply Z.ltb_lt in E2.
      replace (Z.max (Z.of_nat (S W)) (Z.of_nat w + 1) - 1) with (Z.of_nat (Nat.max w W)) by lia.
      rewrite (C12_lemma F M (dense F (Nat.max w W) ps) w (Nat.max w W)); try lia; auto.
      + eexists. split; reflexivity.
      + apply HwM. lia.
      + apply dense_length.
    - eexists. split; [reflexivity|]. f_equal. apply andb_false_iff in E. rewrite !Z.ltb_ge in E.
      destruct (Nat.eq_dec w 0) as [Ew|Ew].
      + destruct (Hw0 Ew) as [-> | Eps]; [reflexivity|].
        assert (EW : W = 0%nat) by (unfold W, ps, en_cols; rewrite Eps; reflexivity).
        rewrite EW, Ew. cbn [Nat.max Nat.sub repeat].
        f_equal. rewrite <- (map_id M) at 1. apply map_ext. intros r. rewrite app_nil_r. reflexivity.
      + replace (Nat.max w W - w)%nat with 0%nat by lia. cbn [repeat].
        f_equal. rewrite <- (map_id M) at 1. apply map_ext. intros r. rewrite app_nil_r. reflexivity. }
  destruct Hgoal as (d2 & HE & Hd2).
  assert (Hholds : forall lb qs, holds (map (fun r => r ++ repeat (vzero F) (Nat.max w W - w)) M
           ++ [dense F (Nat.max w W) ps]) (Nat.max w W)
     (mkL d2 lb qs (Z.max (Z.max (Z.of_nat (S W)) (Z.of_nat w + 1) - 1) (Z.of_nat w)))).
  { intros lb qs. split; [exact Hd2|]. split; [|cbn [l_max]; lia].
    apply Forall_app. split; [|constructor; [apply dense_length|constructor]].
    apply Forall_map. eapply Forall_impl; [|exact Hrows]. cbn beta. intros r Hr.
    rewrite app_length, repeat_length. lia. }
  destruct (en_qid e) as [q|] eqn:Eq.
  - destruct Hq as (tok & Ew & Etok). rewrite Ew, Etok. rewrite Hd, Hfold'. cbn [bind]. rewrite Hmax, HE.
    cbn [bind]. eexists. split; [reflexivity|]. cbn [l_labels l_qids somes]. auto.
  - destruct Hq as (Ew & Etoks). rewrite Ew. destruct toks as [|tok toks]; [congruence|].
    assert (Hnq : scan_qid tok = None) by (inversion HF as [|? ? ? ? [_ Hnq] _]; exact Hnq). rewrite Hnq. rewrite Hd, Hfold'. cbn [bind]. rewrite Hmax, HE.
    cbn [bind]. eexists. split; [reflexivity|]. cbn [l_labels l_qids somes]. rewrite app_nil_r. auto.
Qed.

(** ** C13 *)
Lemma parse_comment l st : comment_line l -> parse_line F l st = Ok st.
Proof. intros [c ->]. reflexivity. Qed.

Lemma cols_width_app es e : cols_width (es ++ [e]) = Nat.max (cols_width es) (widest (en_cols e)).
Proof.
  unfold cols_width. rewrite map_app, fold_right_app. cbn [map fold_right]. rewrite Nat.max_0_r.
  induction (map (fun e => widest (en_cols e)) es) as [|x l IH]; cbn [fold_right]; lia.
Qed.
Lemma cols_width_in es e : In e es -> (widest (en_cols e) <= cols_width es)%nat.
Proof.
  unfold cols_width. induction es as [|x es IH]; [intros []|]. intros [->|H]; cbn [map fold_right]; [lia|].
  apply IH in H. lia.
Qed.
Lemma cols_width_app2 a b : cols_width (a ++ b) = Nat.max (cols_width a) (cols_width b).
Proof.
  unfold cols_width. rewrite map_app, fold_right_app.
  induction (map (fun e => widest (en_cols e)) a) as [|x l IH]; cbn [fold_right]; lia.
Qed.

Definition matrix (es : list entry) : list (list V) := map (fun e => dense F (cols_width es) (en_cols e)) es.

Lemma matrix_snoc es e :
  map (fun r => r ++ repeat (vzero F) (Nat.max (cols_width es) (widest (en_cols e)) - cols_width es)) (matrix es)
  ++ [dense F (Nat.max (cols_width es) (widest (en_cols e))) (en_cols e)] = matrix (es ++ [e]).
Proof.
  unfold matrix. rewrite map_app, map_map, cols_width_app. cbn [map]. f_equal.
  apply map_ext_in'. intros e' He'. apply cols_width_in in He'. rewrite dense_pad by exact He'.
  f_equal. lia.
Qed.

Lemma widest_pos e : en_pairs e <> [] -> (0 < widest (en_cols e))%nat.
Proof.
  intros Hne. unfold en_cols. destruct (en_pairs e) as [|[f v] ps]; [congruence|]. cbn [placed].
  rewrite widest_cons. lia.
Qed.

(** Either nothing is stored yet, or the cols_width is positive; when nothing is stored, the
    next data line must have a feature, unless no line has one. *)
Definition good_start (done es : list entry) : Prop :=
  (cols_width done <> 0%nat) \/
  (done = [] /\ match es with [] => True | e :: _ => en_pairs e <> [] end) \/
  (Forall (fun e => en_pairs e = []) (done ++ es)).

Lemma all_empty_cols_width es : Forall (fun e => en_pairs e = []) es -> cols_width es = 0%nat.
Proof.
  intros H. unfold cols_width. induction H as [|e es He _ IH]; [reflexivity|].
  cbn [map fold_right]. unfold en_cols at 1. rewrite He. exact IH.
Qed.

Lemma parse_lines_entries ls es : entries ls es -> (forall l, In l ls -> ~ In nul l) ->
  forall done st ys, holds (matrix done) (cols_width done) st -> good_start done es ->
  Forall2 (fun e y => rd_label F (en_label e) = Some y) es ys ->
  Z.of_nat (length (done ++ es) * cols_width (done ++ es)) < 2 ^ 31 ->
  exists st', parse_lines F ls st = Ok st' /\
    l_labels st' = l_labels st ++ ys /\ l_qids st' = l_qids st ++ somes (map en_qid es) /\
    holds (matrix (done ++ es)) (cols_width (done ++ es)) st'.
Proof.
  intros H. induction H as [|l ls es Hc He IH|l e ls es Hl He IH]; intros Hnul done st ys Hst Hgood Hys Hsz.
  - inversion Hys; subst. exists st. cbn [parse_lines map somes]. rewrite !app_nil_r. auto.
  - cbn [parse_lines]. unfold c_string. rewrite before_none by (apply Hnul; left; reflexivity).
    rewrite is_nil_false by (destruct Hc as [c ->]; discriminate).
    rewrite parse_comment by exact Hc. cbn [bind].
    apply IH; auto. intros l' Hl'. apply Hnul. right. exact Hl'.
  - inversion Hys as [|? y ? ys' Hy Hys']; subst.
    cbn [parse_lines]. unfold c_string. rewrite before_none by (apply Hnul; left; reflexivity).
    destruct (data_line_facts l e Hl) as (Hne & _). rewrite (is_nil_false Hne).
    assert (Hwd : (Nat.max (cols_width done) (widest (en_cols e)) <= cols_width (done ++ e :: es))%nat).
    { rewrite <- cols_width_app. change (e :: es) with ([e] ++ es). rewrite app_assoc, (cols_width_app2 (done ++ [e]) es). lia. }
    destruct (C11_lemma l e st (matrix done) (cols_width done) y) as (st1 & E1 & L1 & Q1 & H1); auto.
    + intros E0. destruct Hgood as [Hg|[[-> _]|Hg]]; [congruence|left; reflexivity|right].
      rewrite Forall_forall in Hg. apply Hg. apply in_or_app. right. left. reflexivity.
    + intros Hw Hm. unfold matrix in Hm. apply map_eq_nil in Hm. rewrite Hm in Hw. apply Hw. reflexivity.
    + unfold matrix. rewrite map_length. rewrite app_length in Hsz. cbn [length] in Hsz. nia.
    + rewrite E1. cbn [bind]. rewrite matrix_snoc, <- cols_width_app in H1.
      destruct (IH (fun l' Hl' => Hnul l' (or_intror Hl')) (done ++ [e]) st1 ys') as (st2 & E2 & L2 & Q2 & H2); auto.
      * destruct Hgood as [Hg|[[-> Hg]|Hg]].
        -- left. rewrite cols_width_app. lia.
        -- left. cbn [app]. unfold cols_width. cbn [map fold_right]. pose proof (widest_pos _ Hg). lia.
        -- right. right. rewrite <- app_assoc. exact Hg.
      * rewrite <- app_assoc. exact Hsz.
      * exists st2. split; [exact E2|]. rewrite L2, L1, Q2, Q1, <- !app_assoc. split; [reflexivity|].
        split; [|rewrite <- app_assoc in H2; exact H2]. f_equal. cbn [map somes].
        destruct (en_qid e); reflexivity.
Qed.

Lemma chunks_concat (M : list (list V)) w : Forall (fun r => length r = w) M -> chunks (length M) w (concat M) = M.
Proof.
  intros H. induction H as [|r M Hr _ IH]; [reflexivity|]. cbn [length chunks concat].
  subst w. rewrite firstn_app_exact, skipn_app_exact, IH. reflexivity.
Qed.

Lemma Forall2_len {A B} (R : A -> B -> Prop) a b : Forall2 R a b -> length a = length b.
Proof. intros H. induction H; cbn [length]; congruence. Qed.

Theorem C13_lemma f ls es ys :
  file_text f ls -> entries ls es -> es <> [] ->
  ((exists e r, es = e :: r /\ en_pairs e <> []) \/ (forall e, In e es -> en_pairs e = [])) ->
  Forall2 (fun e y => rd_label F (en_label e) = Some y) es ys ->
  Z.of_nat (length es * cols_width es) < 2 ^ 31 ->
  load_svmlight_file F f =
    Ok (cols_width es, map (fun e => map (clamp F) (dense F (cols_width es) (en_cols e))) es, ys,
        somes (map en_qid es)).
Proof.
  intros Hf He Hne Hfirst Hys Hsz. unfold load_svmlight_file, parse_file.
  rewrite (file_lines_text _ _ Hf).
  destruct (parse_lines_entries ls es He) with (done := @nil entry) (st := @l_init V) (ys := ys)
    as (st & E & L & Q & (HD & HR & _)); auto.
  - intros l Hl. eapply file_text_no_nul; eauto.
  - repeat split. constructor.
  - destruct Hfirst as [(e & r & -> & Hp)|Hp]; [right; left; auto|]. right. right. apply Forall_forall. exact Hp.
  - rewrite E. cbn [bind]. rewrite L, Q. cbn [l_init l_labels l_qids app].
    assert (Hlen : length ys = length es) by (symmetry; eapply Forall2_len; eauto).
    rewrite HD. cbn [app] in HR, HD |- *. rewrite (concat_length_const _ _ HR).
    assert (Hm : length (matrix es) = length es) by apply map_length. rewrite Hm, Hlen. replace (Nat.eqb (length es) 0) with false
      by (symmetry; apply Nat.eqb_neq; destruct es; [congruence|discriminate]).
    assert (Hdiv : (length es * cols_width es / length es)%nat = cols_width es)
      by (rewrite Nat.mul_comm; apply Nat.div_mul; destruct es; [congruence|discriminate]).
    rewrite Hdiv, Nat.eqb_refl. cbn [negb].
    rewrite <- Hm, chunks_concat by exact HR. unfold matrix. rewrite map_map. reflexivity.
Qed.

End Load.
