(** Svmlight files: increasing ids, leading featureless rows, dump then load (C13, C14). *)
From Coq Require Import Ascii String List ZArith Lia Bool Sorted.
From Verif Require Import Base Lists M_Text M_Dataset M_Svmlight S_Dataset S_Svmlight
  L_Dataset L_Text L_Reshape L_Svmlight.
Import ListNotations.
Local Open Scope Z_scope.

Lemma increasing_cols e : increasing (en_pairs e) -> en_cols e = en_pairs e.
Proof. intros [H1 H2]. unfold en_cols. apply placed_id; auto. Qed.
Lemma increasing_width es : Forall (fun e => increasing (en_pairs e)) es -> cols_width es = width es.
Proof.
  intros H. unfold cols_width, width. f_equal. apply map_ext_in'. intros e He.
  rewrite Forall_forall in H. rewrite increasing_cols by auto. reflexivity.
Qed.

Section Files.
Context {V : Type} (F : fmt V).

Theorem C11_increasing_lemma l e (st : lstate) M w y :
  data_line l e -> increasing (en_pairs e) -> rd_label F (en_label e) = Some y ->
  holds M w st -> (w = 0%nat -> M = [] \/ en_pairs e = []) -> (w <> 0%nat -> M <> []) ->
  Z.of_nat (length M * Nat.max w (widest (en_pairs e))) < 2 ^ 31 ->
  exists st', parse_line F l st = Ok st' /\
    l_labels st' = l_labels st ++ [y] /\
    l_qids st' = l_qids st ++ somes [en_qid e] /\
    holds (map (fun r => r ++ repeat (vzero F) (Nat.max w (widest (en_pairs e)) - w)) M
           ++ [dense F (Nat.max w (widest (en_pairs e))) (en_pairs e)])
          (Nat.max w (widest (en_pairs e))) st'.
Proof.
  intros Hl Hi Hy Hh H1 H2. pose proof (C11_lemma F l e st M w y Hl Hy Hh H1 H2) as H.
  rewrite (increasing_cols e Hi) in H. exact H.
Qed.

Theorem C13_increasing_lemma f ls es ys :
  file_text f ls -> entries ls es -> Forall (fun e => increasing (en_pairs e)) es -> es <> [] ->
  ((exists e r, es = e :: r /\ en_pairs e <> []) \/ (forall e, In e es -> en_pairs e = [])) ->
  Forall2 (fun e y => rd_label F (en_label e) = Some y) es ys ->
  Z.of_nat (length es * width es) < 2 ^ 31 ->
  load_svmlight_file F f =
    Ok (width es, map (fun e => map (clamp F) (dense F (width es) (en_pairs e))) es, ys,
        somes (map en_qid es)).
Proof.
  intros Hf He Hi Hne H1 Hys Hsz. rewrite <- (increasing_width es Hi) in *.
  rewrite (C13_lemma F f ls es ys Hf He Hne H1 Hys Hsz). f_equal. f_equal. f_equal. f_equal.
  apply map_ext_in'. intros e Hin. rewrite Forall_forall in Hi. rewrite increasing_cols by auto. reflexivity.
Qed.

(** ** Leading rows without any feature *)
Lemma entries_split ls es0 es1 : entries ls (es0 ++ es1) ->
  exists ls0 ls1, ls = ls0 ++ ls1 /\ entries ls0 es0 /\ entries ls1 es1.
Proof.
  intros H. remember (es0 ++ es1) as es eqn:E. revert es0 E.
  induction H as [|l ls es Hc He IH|l e ls es Hl He IH]; intros es0 E.
  - symmetry in E. apply app_eq_nil in E as [-> ->]. exists [], []. repeat split; constructor.
  - destruct (IH es0 E) as (ls0 & ls1 & -> & H0 & H1). exists (l :: ls0), ls1.
    repeat split; auto. constructor; auto.
  - destruct es0 as [|e0 es0].
    + cbn [app] in E. exists [], (l :: ls). repeat split; [constructor|]. rewrite <- E. apply entries_data; auto.
    + cbn [app] in E. injection E as <- E. destruct (IH es0 E) as (ls0 & ls1 & -> & H0 & H1).
      exists (l :: ls0), ls1. repeat split; auto. apply entries_data; auto.
Qed.

Lemma parse_lines_app a b (st : lstate) : (forall l, In l a -> ~ In nul l /\ l <> []) ->
  parse_lines F (a ++ b) st = bind (parse_lines F a st) (parse_lines F b).
Proof.
  revert st. induction a as [|l a IH]; intros st Ha; [reflexivity|]. cbn [app parse_lines].
  destruct (Ha l (or_introl eq_refl)) as [H1 H2]. unfold c_string. rewrite before_none by exact H1.
  rewrite (is_nil_false H2). destruct (parse_line F l st) as [st1|e]; [|reflexivity]. cbn [bind].
  apply IH. intros l' Hl'. apply Ha. right. exact Hl'.
Qed.

Lemma concat_nils {A B} (l : list A) : concat (map (fun _ => @nil B) l) = [].
Proof. induction l; auto. Qed.

Theorem C13_leading_lemma f ls es0 es1 ys :
  file_text f ls -> entries ls (es0 ++ es1) -> es0 <> [] ->
  (forall e, In e es0 -> en_pairs e = []) ->
  (exists e r, es1 = e :: r /\ en_pairs e <> []) ->
  Forall2 (fun e y => rd_label F (en_label e) = Some y) (es0 ++ es1) ys ->
  Z.of_nat (length (es0 ++ es1) * cols_width es1) < 2 ^ 31 ->
  load_svmlight_file F f = Err ValueError \/
  exists nf X, load_svmlight_file F f = Ok (nf, X, ys, somes (map en_qid (es0 ++ es1))) /\
    (nf < cols_width es1)%nat.
Proof.
  intros Hf He Hne H0 (e1 & r1 & E1 & Hp1) Hys Hsz.
  destruct (entries_split _ _ _ He) as (ls0 & ls1 & -> & He0 & He1).
  apply Forall2_app_inv_l in Hys as (ys0 & ys1 & Hys0 & Hys1 & ->).
  assert (Hnul : forall l, In l (ls0 ++ ls1) -> ~ In nul l /\ l <> [])
    by (intros l Hl; eapply file_text_no_nul; eauto).
  assert (Hn0 : (0 < length es0)%nat) by (destruct es0; [congruence|cbn [length]; lia]).
  assert (Hall0 : Forall (fun e => en_pairs e = []) es0) by (apply Forall_forall; exact H0).
  rewrite app_length in Hsz.
  unfold load_svmlight_file, parse_file. rewrite (file_lines_text _ _ Hf).
  rewrite parse_lines_app by (intros l Hl; apply Hnul, in_or_app; auto).
  destruct (parse_lines_entries F ls0 es0 He0) with (done := @nil entry) (st := @l_init V) (ys := ys0)
    as (st0 & P0 & L0 & Q0 & (D0 & _ & M0)); auto.
  { intros l Hl. apply Hnul, in_or_app. auto. }
  { repeat split. constructor. }
  { right. right. exact Hall0. }
  { cbn [app]. rewrite all_empty_cols_width by exact Hall0. lia. }
  rewrite P0. cbn [bind]. cbn [app] in D0, M0. rewrite all_empty_cols_width in M0 by exact Hall0.
  assert (D0' : l_data st0 = []).
  { rewrite D0. unfold matrix. rewrite all_empty_cols_width by exact Hall0. apply concat_nils. }
  destruct (parse_lines_entries F ls1 es1 He1) with (done := @nil entry) (st := st0) (ys := ys1)
    as (st1 & P1 & L1 & Q1 & (D1 & R1 & _)); auto.
  { intros l Hl. apply Hnul, in_or_app. auto. }
  { split; [exact D0'|]. split; [constructor|exact M0]. }
  { right. left. rewrite E1. auto. }
  { cbn [app]. lia. }
  rewrite P1. cbn [bind app] in *. rewrite L1, L0, Q1, Q0. cbn [l_init l_labels l_qids app].
  rewrite D1, (concat_length_const _ _ R1). assert (Hm : length (matrix F es1) = length es1) by apply map_length. rewrite Hm.
  rewrite app_length, <- (Forall2_len _ _ _ Hys0), <- (Forall2_len _ _ _ Hys1).
  assert (Hw : (0 < cols_width es1)%nat).
  { rewrite E1. unfold cols_width. cbn [map fold_right]. pose proof (widest_pos e1 Hp1). lia. }
  replace (Nat.eqb (length es0 + length es1) 0) with false by (symmetry; apply Nat.eqb_neq; lia).
  match goal with |- context [if ?b then _ else _] => destruct b end; [left; reflexivity|right].
  eexists _, _. split.
  - rewrite map_app. assert (Hs : forall a b : list (option Z), somes (a ++ b) = somes a ++ somes b).
    { clear. induction a as [|[x|] a IH]; intros b; cbn [app somes]; [reflexivity| |]; rewrite IH; reflexivity. }
    rewrite Hs. reflexivity.
  - apply Nat.div_lt_upper_bound; nia.
Qed.

(** ** C14: dump then load *)
Section Dump.
Context (num : V -> numtok).

Notation cell_prints := (cell_prints F num).
Notation label_prints := (label_prints F num).

Lemma flat_map_space {A} (g : A -> text) l :
  lit " " ++ flat_map (fun p => g p ++ lit " ") l = flat_map (fun p => lit " " ++ g p) l ++ lit " ".
Proof.
  induction l as [|x l IH]; [reflexivity|]. cbn [flat_map]. rewrite <- !app_assoc.
  rewrite <- IH. reflexivity.
Qed.

Definition row_pairs (first : nat) (row : list V) : list (Z * numtok) :=
  map (fun p => (Z.of_nat (fst p), num (snd p))) (combine (seq first (length row)) row).

Lemma space_blanks : blanks (lit " ").
Proof. constructor; [left; reflexivity|constructor]. Qed.

Lemma pairs_text_row (row : list V) : forall first, Forall cell_prints row ->
  Z.of_nat (first + length row) < 2 ^ 31 ->
  pairs_text (flat_map (fun p : nat * V => lit " " ++ show_Z (Z.of_nat (fst p)) ++ lit ":" ++ show F (snd p))
                       (combine (seq first (length row)) row)) (row_pairs first row).
Proof.
  induction row as [|v row IH]; intros first Hr Hb; [constructor|].
  inversion Hr as [|? ? [Hv _] Hr']; subst. unfold row_pairs. cbn [length seq combine flat_map map fst snd].
  rewrite <- !app_assoc. apply pairs_cons with (w := lit " ").
  - exact space_blanks.
  - discriminate.
  - apply show_Z_natural. cbn [length] in Hb. lia.
  - exact Hv.
  - apply IH; auto. cbn [length] in Hb. lia.
Qed.

Definition head_text (q : option Z) (y : V) : text :=
  show F y ++ match q with Some q => lit " qid:" ++ show_Z q | None => [] end ++ lit " ".
Definition line_text (first : nat) (q : option Z) (y : V) (row : list V) : text :=
  head_text q y
  ++ flat_map (fun p : nat * V => show_Z (Z.of_nat (fst p)) ++ lit ":" ++ show F (snd p) ++ lit " ")
              (combine (seq first (length row)) row) ++ [newline].
Definition line_entry (first : nat) (q : option Z) (y : V) (row : list V) : entry :=
  mkEntry (num y) q (row_pairs first row).

Lemma line_text_data first q y row : label_prints y -> Forall cell_prints row -> row <> [] ->
  (forall z, q = Some z -> - 2 ^ 31 <= z < 2 ^ 31) -> Z.of_nat (first + length row) < 2 ^ 31 ->
  data_line (line_text first q y row) (line_entry first q y row).
Proof.
  intros [Hy _] Hr Hne Hq Hb.
  pose proof (pairs_text_row row first Hr Hb) as Hp.
  assert (E : line_text first q y row =
    [] ++ show F y ++ match q with Some q => lit " qid:" ++ show_Z q | None => [] end
    ++ flat_map (fun p : nat * V => lit " " ++ show_Z (Z.of_nat (fst p)) ++ lit ":" ++ show F (snd p))
                (combine (seq first (length row)) row) ++ (lit " " ++ [newline]) ++ []).
  { unfold line_text, head_text. rewrite app_nil_r. cbn [app]. rewrite <- !app_assoc. f_equal. f_equal.
    rewrite (app_assoc (lit " ")).
    rewrite (flat_map_ext _ (fun p : nat * V => (show_Z (Z.of_nat (fst p)) ++ lit ":" ++ show F (snd p)) ++ lit " "))
      by (intros p; rewrite <- !app_assoc; reflexivity).
    rewrite flat_map_space. rewrite <- app_assoc. reflexivity. }
  rewrite E. unfold line_entry. apply data_line_intro; auto.
  - constructor.
  - destruct q as [q|]; [|constructor].
    change (lit " qid:" ++ show_Z q) with (lit " " ++ lit "qid:" ++ show_Z q).
    apply qid_some; [exact space_blanks|discriminate|apply show_Z_int; auto].
  - constructor; [left; reflexivity|]. constructor; [right; right; left; reflexivity|constructor].
  - right. unfold row_pairs. destruct row; [congruence|]. discriminate.
Qed.

(** Characters of a dumped line before its newline. *)
Definition tame (c : ascii) : Prop := c <> newline /\ c <> nul.
Lemma tame_line t : Forall tame t -> line_body t.
Proof.
  intros H. rewrite Forall_forall in H. split; intros Hin; apply H in Hin; destruct Hin; congruence.
Qed.
Lemma tame_of t : Forall plain t -> Forall (fun c => ~ blank_char c) t -> Forall tame t.
Proof.
  intros H1 H2. rewrite Forall_forall in *. intros c Hc. split; [|apply H1; exact Hc].
  intros ->. apply (H2 _ Hc). right. right. left. reflexivity.
Qed.
Lemma tame_numeral t n : numeral t n -> Forall tame t.
Proof. intros H. apply tame_of; [eapply numeral_plain|eapply numeral_not_blank]; eauto. Qed.
Lemma tame_int t q : int_text t q -> Forall tame t.
Proof.
  intros H. apply tame_of; [eapply int_plain; eauto|]. destruct H as (sg & neg & ds & -> & Hs & Hd & _).
  apply Forall_app. split; [eapply sign_not_blank; eauto|apply digits_not_blank, Hd].
Qed.
Lemma tame_nat t n : natural t n -> Forall tame t.
Proof. intros H. apply tame_of; [eapply natural_plain; eauto|]. apply digits_not_blank, H. Qed.

Lemma line_text_body first q y row : label_prints y -> Forall cell_prints row ->
  (forall z, q = Some z -> - 2 ^ 31 <= z < 2 ^ 31) -> Z.of_nat (first + length row) < 2 ^ 31 ->
  exists b, line_text first q y row = b ++ [newline] /\ line_body b.
Proof.
  intros [Hy _] Hr Hq Hb. unfold line_text. rewrite app_assoc. eexists. split; [reflexivity|].
  apply tame_line. apply Forall_app. split.
  - unfold head_text. apply Forall_app. split; [eapply tame_numeral; eauto|]. apply Forall_app. split.
    + destruct q as [q|]; [|constructor]. apply Forall_app.
      split; [repeat constructor; discriminate|eapply tame_int; apply show_Z_int; auto].
    + repeat constructor; discriminate.
  - apply Forall_flat_map. apply Forall_forall. intros [i v] Hin.
    pose proof (in_combine_l _ _ _ _ Hin) as Hi. apply in_combine_r in Hin. apply in_seq in Hi.
    rewrite Forall_forall in Hr. destruct (Hr v Hin) as [Hv _]. cbn [fst snd].
    repeat (apply Forall_app; split); try (repeat constructor; discriminate).
    + eapply tame_nat. apply show_Z_natural. lia.
    + eapply tame_numeral; eauto.
Qed.

Lemma file_text_lines ls : Forall (fun l => exists b, l = b ++ [newline] /\ line_body b) ls ->
  file_text (concat ls) ls.
Proof.
  intros H. induction H as [|l ls (b & -> & Hb) _ IH]; [constructor|]. cbn [concat].
  rewrite <- app_assoc. apply file_cons; auto.
Qed.

(** Columns and cells of a dumped row. *)
Lemma placed_row row : forall k first, (first = k \/ first = S k)%nat ->
  placed (Z.of_nat (S k)) (row_pairs first row) = row_pairs (S k) row.
Proof.
  unfold row_pairs. induction row as [|v row IH]; intros k first Hf; [reflexivity|].
  cbn [length seq combine map placed fst snd].
  replace (Z.max (Z.of_nat (S k)) (Z.of_nat first)) with (Z.of_nat (S k)) by lia.
  replace (Z.of_nat (S k) + 1) with (Z.of_nat (S (S k))) by lia.
  rewrite IH by lia. reflexivity.
Qed.
Lemma widest_row row : forall k, row <> [] -> widest (row_pairs k row) = (k + length row - 1)%nat.
Proof.
  unfold row_pairs. induction row as [|v row IH]; intros k Hne; [congruence|].
  cbn [length seq combine map fst snd]. rewrite widest_cons, Nat2Z.id.
  destruct row as [|v' row]; [change (widest _) with 0%nat; cbn [length]; lia|].
  rewrite IH by discriminate. cbn [length]. lia.
Qed.
Lemma dense_row row : forall k, Forall (fun v => rd_value F (num v) = v) row ->
  map (fun j => cell F (row_pairs k row) (Z.of_nat j)) (seq k (length row)) = row.
Proof.
  unfold row_pairs. induction row as [|v row IH]; intros k H; [reflexivity|].
  inversion H as [|? ? Hv Hr]; subst. cbn [length seq combine map fst snd].
  rewrite cell_head, Hv. f_equal. rewrite <- (IH (S k) Hr) at 2.
  apply map_ext_in'. intros j Hj. apply in_seq in Hj. apply cell_tail. lia.
Qed.

Definition opt_qid (qids : list Z) (i : nat) : option Z :=
  if Nat.ltb 1 (length qids) then Some (nth i qids 0) else None.
Definition first_id (zero_based : bool) : nat := if zero_based then 0 else 1.

Lemma mem_get_nth {A} (l : list A) i d : (i < length l)%nat -> mem_get l (Z.of_nat i) = Ok (nth i l d).
Proof.
  intros H. unfold mem_get. rewrite zget_nat. rewrite (nth_error_nth' l d H). reflexivity.
Qed.
Lemma combine_seq_shift (row : list V) : forall a,
  flat_map (fun p : nat * V => show_Z (Z.of_nat (S (fst p))) ++ lit ":" ++ show F (snd p) ++ lit " ")
           (combine (seq a (length row)) row)
  = flat_map (fun p : nat * V => show_Z (Z.of_nat (fst p)) ++ lit ":" ++ show F (snd p) ++ lit " ")
           (combine (seq (S a) (length row)) row).
Proof.
  induction row as [|v row IH]; intros a; [reflexivity|].
  cbn [length seq combine flat_map fst snd]. rewrite IH. reflexivity.
Qed.

Lemma dump_row_ok zb y qids i row : (i < length y)%nat ->
  ((1 < length qids)%nat -> (i < length qids)%nat) ->
  dump_row F zb y qids i row = Ok (line_text (first_id zb) (opt_qid qids i) (nth i y (vzero F)) row).
Proof.
  intros Hy Hq. unfold dump_row. rewrite (mem_get_nth y i (vzero F) Hy). cbn [bind].
  assert (E : flat_map (fun p : nat * V => show_Z (Z.of_nat (if zb then fst p else S (fst p)))
                            ++ lit ":" ++ show F (snd p) ++ lit " ") (combine (seq 0 (length row)) row)
    = flat_map (fun p : nat * V => show_Z (Z.of_nat (fst p)) ++ lit ":" ++ show F (snd p) ++ lit " ")
           (combine (seq (first_id zb) (length row)) row)).
  { destruct zb; [reflexivity|]. apply combine_seq_shift. }
  unfold opt_qid, line_text, head_text. destruct (Nat.ltb 1 (length qids)) eqn:El.
  - apply Nat.ltb_lt in El. rewrite (mem_get_nth qids i 0 (Hq El)). cbn [bind]. rewrite E.
    rewrite <- !app_assoc. reflexivity.
  - cbn [bind]. rewrite E. reflexivity.
Qed.

Definition dump_lines (zb : bool) (X : list (list V)) (y : list V) (qids : list Z) : list text :=
  map (fun p => line_text (first_id zb) (opt_qid qids (fst p)) (nth (fst p) y (vzero F)) (snd p))
      (combine (seq 0 (length X)) X).
Definition dump_entries (zb : bool) (X : list (list V)) (y : list V) (qids : list Z) : list entry :=
  map (fun p => line_entry (first_id zb) (opt_qid qids (fst p)) (nth (fst p) y (vzero F)) (snd p))
      (combine (seq 0 (length X)) X).

Lemma dump_text zb X y qids : length y = length X -> ((1 < length qids)%nat -> length qids = length X) ->
  int32_ids qids -> dump_svmlight_file F zb X y qids = Ok (concat (dump_lines zb X y qids)).
Proof.
  intros Hy Hq H32. unfold dump_svmlight_file.
  assert (E : map i32 qids = qids) by (apply map_i32_id; exact H32). rewrite E.
  rewrite (mapM_map_ok _ (fun p => line_text (first_id zb) (opt_qid qids (fst p)) (nth (fst p) y (vzero F)) (snd p))).
  - reflexivity.
  - intros [i row] Hin. apply in_combine_l in Hin. apply in_seq in Hin. cbn [fst snd].
    apply dump_row_ok; [lia|]. intros H. rewrite (Hq H). lia.
Qed.

Lemma map_nth_seq {A} (l : list A) d : map (fun i => nth i l d) (seq 0 (length l)) = l.
Proof.
  induction l as [|x l IH]; [reflexivity|]. cbn [length seq map nth]. f_equal.
  rewrite <- seq_shift, map_map. exact IH.
Qed.
Lemma map_fst_combine {A B} (a : list A) (b : list B) : length a = length b -> map fst (combine a b) = a.
Proof. revert b. induction a as [|x a IH]; intros [|z b] H; try discriminate; auto. cbn in *. f_equal. auto. Qed.
Lemma map_snd_combine {A B} (a : list A) (b : list B) : length a = length b -> map snd (combine a b) = b.
Proof. revert b. induction a as [|x a IH]; intros [|z b] H; try discriminate; auto. cbn in *. f_equal. auto. Qed.

Lemma int32_nth qids i : int32_ids qids -> - 2 ^ 31 <= nth i qids 0 < 2 ^ 31.
Proof.
  intros H. destruct (Nat.lt_ge_cases i (length qids)) as [Hi|Hi].
  - unfold int32_ids in H. rewrite Forall_forall in H. apply H. apply nth_In. exact Hi.
  - rewrite nth_overflow by exact Hi. lia.
Qed.

Lemma cols_width_const es nf : es <> [] -> (forall e, In e es -> widest (en_cols e) = nf) -> cols_width es = nf.
Proof.
  unfold cols_width. induction es as [|e es IH]; intros Hne Hall; [congruence|]. cbn [map fold_right].
  rewrite (Hall e) by (left; reflexivity). destruct es as [|e' es]; [cbn; lia|].
  rewrite IH; [lia|discriminate|intros x Hx; apply Hall; right; exact Hx].
Qed.

Theorem C14_lemma zb nf (X : list (list V)) y qids :
  (0 < length X)%nat -> (0 < nf)%nat -> Forall (fun r => length r = nf) X -> length y = length X ->
  ((1 < length qids)%nat -> length qids = length X) -> int32_ids qids ->
  Forall label_prints y -> Forall (Forall cell_prints) X ->
  Z.of_nat (length X * S nf) < 2 ^ 31 ->
  exists f, dump_svmlight_file F zb X y qids = Ok f /\
    load_svmlight_file F f = Ok (nf, X, y, if Nat.ltb 1 (length qids) then qids else []).
Proof.
  intros Hn Hnf HX Hy Hq H32 Hly HcX Hsz.
  eexists. split; [apply dump_text; auto|].
  set (es := dump_entries zb X y qids).
  assert (Hin : forall i row, In (i, row) (combine (seq 0 (length X)) X) ->
     (i < length X)%nat /\ length row = nf /\ row <> [] /\ Forall cell_prints row /\ label_prints (nth i y (vzero F))).
  { intros i row Hp. pose proof (in_combine_l _ _ _ _ Hp) as H1. apply in_combine_r in Hp. apply in_seq in H1.
    rewrite Forall_forall in HX, HcX, Hly. assert (Hl : length row = nf) by auto.
    repeat split; auto; try lia.
    - intros ->. cbn in Hl. lia.
    - apply Hly. apply nth_In. lia.
    - apply Hly. apply nth_In. lia. }
  assert (Hfid : (first_id zb <= 1)%nat) by (destruct zb; cbn; lia).
  assert (Hqr : forall i z, opt_qid qids i = Some z -> - 2 ^ 31 <= z < 2 ^ 31).
  { intros i z. unfold opt_qid. destruct (Nat.ltb 1 (length qids)); [|discriminate]. intros E.
    injection E as <-. apply int32_nth, H32. }
  assert (Hfile : file_text (concat (dump_lines zb X y qids)) (dump_lines zb X y qids)).
  { apply file_text_lines. unfold dump_lines. apply Forall_map. apply Forall_forall. intros [i row] Hp.
    destruct (Hin i row Hp) as (H1 & H2 & H3 & H4 & H5). cbn [fst snd].
    apply line_text_body; auto; [apply Hqr|]. nia. }
  assert (Hent : entries (dump_lines zb X y qids) es).
  { unfold es, dump_lines, dump_entries.
    assert (Hsub : forall l, (forall p, In p l -> In p (combine (seq 0 (length X)) X)) ->
      entries (map (fun p => line_text (first_id zb) (opt_qid qids (fst p)) (nth (fst p) y (vzero F)) (snd p)) l)
              (map (fun p => line_entry (first_id zb) (opt_qid qids (fst p)) (nth (fst p) y (vzero F)) (snd p)) l)).
    { induction l as [|[i row] l IH]; intros Hl; [constructor|]. cbn [map fst snd].
      destruct (Hin i row (Hl _ (or_introl eq_refl))) as (H1 & H2 & H3 & H4 & H5).
      apply entries_data; [|apply IH; intros p Hp; apply Hl; right; exact Hp].
      apply line_text_data; auto; [apply Hqr|]. nia. }
    apply Hsub. auto. }
  assert (Hcols : forall e, In e es -> exists row i, e = line_entry (first_id zb) (opt_qid qids i) (nth i y (vzero F)) row
     /\ In (i, row) (combine (seq 0 (length X)) X) /\ en_cols e = row_pairs 1 row).
  { intros e He. unfold es, dump_entries in He. apply in_map_iff in He as ([i row] & <- & Hp).
    exists row, i. repeat split; auto. cbn [fst snd]. unfold en_cols, line_entry. cbn [en_pairs].
    apply (placed_row row 0). destruct zb; cbn; auto. }
  assert (Hes : es <> []).
  { unfold es, dump_entries. destruct X as [|r X]; [cbn in Hn; lia|]. discriminate. }
  assert (Hw : cols_width es = nf).
  { assert (Hall : forall e, In e es -> widest (en_cols e) = nf).
    { intros e He. destruct (Hcols e He) as (row & i & _ & Hp & ->). destruct (Hin i row Hp) as (_ & H2 & H3 & _).
      rewrite widest_row by exact H3. lia. }
    apply cols_width_const; auto. }
  rewrite (C13_lemma F _ _ es y Hfile Hent Hes).
  - rewrite Hw.
    match goal with |- Ok (_, ?a, _, ?b) = Ok (_, _, _, ?b') =>
      cut (a = X /\ b = b'); [intros [-> ->]; reflexivity|split] end.
    + transitivity (map snd (combine (seq 0 (length X)) X)); [|apply map_snd_combine, seq_length].
      unfold es, dump_entries. rewrite map_map. apply map_ext_in'. intros [i row] Hp.
      destruct (Hin i row Hp) as (_ & H2 & _ & H4 & _). cbn [fst snd].
      unfold en_cols, line_entry. cbn [en_pairs]. change 1 with (Z.of_nat 1).
      rewrite (placed_row row 0) by (destruct zb; cbn; auto).
      rewrite <- H2. unfold dense. rewrite dense_row.
      * rewrite <- (map_id row) at 2. apply map_ext_in'. intros v Hv. rewrite Forall_forall in H4.
        apply H4. exact Hv.
      * eapply Forall_impl; [|exact H4]. intros v (_ & Hv & _). exact Hv.
    + unfold es, dump_entries. rewrite map_map. cbn [line_entry en_qid].
      rewrite <- (map_map (fun p : nat * list V => fst p) (opt_qid qids)).
      rewrite map_fst_combine by apply seq_length. unfold opt_qid.
      destruct (Nat.ltb 1 (length qids)) eqn:El.
      * apply Nat.ltb_lt in El. rewrite <- (Hq El). rewrite <- (map_map (fun i => nth i qids 0) Some).
        rewrite map_nth_seq. clear. induction qids as [|q l IH]; cbn [map somes]; congruence.
      * clear. induction (seq 0 (length X)); cbn [map somes]; auto.
  - left. destruct es as [|e r] eqn:Ees; [congruence|]. exists e, r. split; [reflexivity|].
    destruct (Hcols e (or_introl eq_refl)) as (row & i & -> & Hp & _). destruct (Hin i row Hp) as (_ & _ & H3 & _).
    unfold line_entry, row_pairs. cbn [en_pairs]. destruct row; [congruence|discriminate].
  - unfold es, dump_entries.     assert (Ey : map (fun p : nat * list V => nth (fst p) y (vzero F)) (combine (seq 0 (length X)) X) = y).
    { rewrite <- (map_map fst (fun i => nth i y (vzero F))), map_fst_combine by apply seq_length.
      rewrite <- Hy. apply map_nth_seq. }
    assert (Hgen : forall l, (forall p, In p l -> In p (combine (seq 0 (length X)) X)) ->
      Forall2 (fun e v => rd_label F (en_label e) = Some v)
        (map (fun p => line_entry (first_id zb) (opt_qid qids (fst p)) (nth (fst p) y (vzero F)) (snd p)) l)
        (map (fun p : nat * list V => nth (fst p) y (vzero F)) l)).
    { induction l as [|[i row] l IH]; intros Hl; [constructor|]. cbn [map fst snd]. constructor.
      - destruct (Hin i row (Hl _ (or_introl eq_refl))) as (_ & _ & _ & _ & [_ H5]). exact H5.
      - apply IH. intros p Hp. apply Hl. right. exact Hp. }
    specialize (Hgen _ (fun p Hp => Hp)). rewrite Ey in Hgen. exact Hgen.
  - rewrite Hw. unfold es, dump_entries. rewrite map_length, combine_length, seq_length. nia.
Qed.

(** Data sets: the object itself comes back. *)
Theorem C14_dataset_lemma nf (X : list (list V)) y ids d junk :
  built nf X y ids d -> (2 <= length X)%nat -> (0 < nf)%nat -> Forall (fun r => length r = nf) X ->
  length junk = length ids -> Forall label_prints y -> Forall (Forall cell_prints) X ->
  Z.of_nat (length X * S nf) < 2 ^ 31 ->
  exists f, ds_dump F junk d = Ok f /\ ds_load F f = Ok d.
Proof.
  intros (Hly & Hg & H32 & Hd) Hn Hnf HX Hj Hl Hc Hsz.
  assert (Hids : length ids = length X).
  { unfold ds_init in Hd. destruct (Nat.eqb (length ids) (length X)) eqn:E; [apply Nat.eqb_eq, E|discriminate]. }
  assert (Hu : unroll i32 junk d = ids).
  { rewrite (@unroll_grouped V i32 nf X y ids d junk Hd Hj Hg). apply map_i32_id. exact H32. }
  assert (Hdx : ds_X d = X /\ ds_y d = y).
  { unfold ds_init in Hd. destruct (negb _); [discriminate|]. destruct (compact_ids ids). injection Hd as <-. auto. }
  destruct Hdx as [Ex Ey]. unfold ds_dump. rewrite Hu, Ex, Ey.
  destruct (C14_lemma false nf X y ids) as (f & E1 & E2); auto; try lia.
  exists f. split; [exact E1|]. unfold ds_load. rewrite E2. cbn [bind].
  replace (Nat.ltb 1 (length ids)) with true by (symmetry; apply Nat.ltb_lt; lia). exact Hd.
Qed.

(** One instance: the query id is not written, so the file cannot be loaded as a data set. *)
Theorem C14_single_lemma nf (row : list V) y q d junk :
  built nf [row] [y] [q] d -> (0 < nf)%nat -> length row = nf -> length junk = 1%nat ->
  label_prints y -> Forall cell_prints row -> Z.of_nat (S nf) < 2 ^ 31 ->
  exists f, ds_dump F junk d = Ok f /\ load_svmlight_file F f = Ok (nf, [row], [y], []) /\
    ds_load F f = Err PlainException.
Proof.
  intros (Hly & Hg & H32 & Hd) Hnf HX Hj Hl Hc Hsz.
  assert (Hu : unroll i32 junk d = [q]).
  { rewrite (@unroll_grouped V i32 nf [row] [y] [q] d junk Hd Hj Hg). apply map_i32_id. exact H32. }
  assert (Hdx : ds_X d = [row] /\ ds_y d = [y]).
  { unfold ds_init in Hd. destruct (negb _); [discriminate|]. destruct (compact_ids [q]). injection Hd as <-. auto. }
  destruct Hdx as [Ex Ey]. unfold ds_dump. rewrite Hu, Ex, Ey.
  destruct (C14_lemma false nf [row] [y] [q]) as (f & E1 & E2); auto.
  { cbn [length]. lia. }
  exists f. split; [exact E1|]. split; [exact E2|]. unfold ds_load. rewrite E2. reflexivity.
Qed.
End Dump.
End Files.
