(** Proofs: loading and scoring the first lines of a dump (C97). *)
From Coq Require Import Ascii String List ZArith Lia Bool Permutation.
From Verif Require Import Base Lists Num M_Text M_Svmlight S_Svmlight L_Text L_Svmlight3 M_Dataset M_Ensemble S_Ensemble L_Ensemble L_Ensemble2 M_Loaders M_TextLoaders S_Loaders L_Loaders L_QuickRank L_Dump L_Dump2 S_CutModel L_CutModel L_CutModel2.
Import ListNotations.
Local Open Scope Z_scope.

Lemma file_first f ls : file_text f ls -> forall n, file_text (concat (firstn n ls)) (firstn n ls).
Proof.
  induction 1 as [|b B E|b f ls B F IH]; intros n.
  - rewrite firstn_nil. constructor.
  - destruct n; cbn [firstn concat]; [constructor|]. rewrite firstn_nil. cbn [concat]. rewrite app_nil_r. constructor; assumption.
  - destruct n; cbn [firstn concat]; [constructor|]. rewrite <- app_assoc. constructor; [exact B|apply IH].
Qed.

(** Pieces. *)
Lemma pieces_map {A B V W} (g : tree A V -> tree B W) : (forall t, size (g t) = size t) -> forall ts n,
  pieces n (map g ts) = map (fun p => (fst p, g (snd p))) (pieces n ts).
Proof. intros H. induction ts as [|t ts IH]; intros [|n]; cbn [pieces map fst snd]; auto. rewrite !H, IH. reflexivity. Qed.
Lemma pieces_le {A V} (ts : list (tree A V)) : forall n i p, nth_error (pieces n ts) i = Some p -> (fst p <= there n ts)%nat /\ (fst p <= size (snd p))%nat.
Proof.
  induction ts as [|t ts IH]; intros [|n] [|i] p H; try discriminate; rewrite there_cons; cbn [pieces nth_error] in H.
  - injection H as <-. cbn [fst snd]. lia.
  - apply IH in H. lia.
Qed.
Lemma no_node_pieces {A V} (ts : list (tree A V)) : forall n, no_node n ts <-> exists i p, nth_error (pieces n ts) i = Some p /\ fst p = 0%nat.
Proof.
  induction ts as [|t ts IH]; intros n.
  - destruct n as [|[|n]]; cbn [no_node pieces]; (split; [tauto|intros (i & p & H & _); destruct i; discriminate]).
  - destruct n as [|n]; [cbn [no_node pieces]; split; [tauto|intros (i & p & H & _); destruct i; discriminate]|]. destruct n as [|n].
    + cbn [no_node pieces]. split; [|auto]. intros _. exists 0%nat. eexists. split; [reflexivity|reflexivity].
    + change (no_node (S (S n)) (t :: ts)) with (no_node (S n - size t) ts). rewrite IH. cbn [pieces]. pose proof (size_pos t). split.
      * intros (i & p & H1 & H2). exists (S i), p. auto.
      * intros ([|i] & p & H1 & H2); cbn [nth_error] in H1; [assert (H3 : fst p = Nat.min (S n) (size t)) by (injection H1 as <-; reflexivity); lia|]. exists i, p. auto.
Qed.
Lemma cut_relabel {A B V} (g : A -> B) (t : tree A V) : forall k, cut_tree k (relabel g t) = relabel g (cut_tree k t).
Proof. induction t as [a v|a f x l _ r IHr]; intros k; cbn [cut_tree relabel]; [reflexivity|]. rewrite size_relabel. destruct (k <=? S (size l))%nat; cbn [relabel]; [reflexivity|]. rewrite IHr. reflexivity. Qed.
Lemma exit_relabel {N : num} {A B} (g : A -> B) row (t : tree A N) : snd (exit_leaf row (relabel g t)) = snd (exit_leaf row t).
Proof. induction t as [a v|a f x l IHl r IHr]; cbn [relabel exit_leaf]; [reflexivity|]. destruct (nleb _ x); assumption. Qed.

Section Model.
Context {N : num}.
(** Scores do not depend on the indices. *)
Definition alike (t t' : tree Z N) : Prop := splits t = splits t' /\ forall row, snd (exit_leaf row t) = snd (exit_leaf row t').
Lemma alike_scores (ts ts' : list (tree Z N)) (row : list N) : Forall2 alike ts ts' -> forall ws, tree_scores ws ts row = tree_scores ws ts' row.
Proof.
  unfold tree_scores. induction 1 as [|t t' ts ts' (_ & H) _ IH]; intros [|w ws]; cbn [combine map fst snd]; auto. rewrite H, IH. reflexivity.
Qed.
Lemma alike_covers (ts ts' : list (tree Z N)) (row : list N) : Forall2 alike ts ts' -> covers row ts' -> covers row ts.
Proof. unfold covers. induction 1 as [|t t' ts ts' (H & _) _ IH]; intros C; constructor; inversion C; subst; [rewrite H; assumption|auto]. Qed.
Lemma Forall2_length' {A B} (R : A -> B -> Prop) l l' : Forall2 R l l' -> length l = length l'.
Proof. induction 1; cbn; auto. Qed.

Lemma stands_detailed (e : ensemble N) ts ws X : stands_all e ts ws -> (forall row, In row X -> covers row ts) ->
  exists leaves, detailed_scoring e X = Ok (leaves, map (tree_scores ws ts) X).
Proof.
  intros He Hc. pose proof He as (En & _ & _ & El & _). unfold detailed_scoring. rewrite En. destruct (Z.ltb_spec (Z.of_nat (length ts)) 0); [lia|].
  set (d := fun row => map (fun p => (fst (exit_leaf row (snd p)), nf32 (nmul (snd (exit_leaf row (snd p))) (fst p)))) (combine ws ts)).
  rewrite (mapM_ok _ d).
  - cbn [bind]. eexists. do 2 f_equal. rewrite map_map. apply map_ext. intros row. unfold d, tree_scores. rewrite map_map. reflexivity.
  - intros row Hr. unfold detail_instance, d. rewrite En.
    assert (E : zrange 0 (Z.of_nat (length ts)) = map Z.of_nat (seq 0 (length (combine ws ts)))) by (rewrite combine_length, El, Nat.min_id; apply zrange_seq).
    rewrite E. apply mapM_ok_iff. clear E.
    assert (K : forall i w t, nth_error (combine ws ts) i = Some (w, t) ->
      (do leaf <- exit_node e row (Z.of_nat i); do s <- leaf_score e (Z.of_nat i) leaf; Ok (leaf, s)) = Ok (fst (exit_leaf row t), nf32 (nmul (snd (exit_leaf row t)) w))).
    { intros i w t Hi. apply nth_error_combine in Hi as [Hw Ht]. destruct (stands_tree e ts ws row i t w He (Hc row Hr) Ht Hw) as (-> & E). cbn [bind]. rewrite E. reflexivity. }
    revert K. generalize (combine ws ts) as l. intros l K. assert (K' : forall m i w t, nth_error l i = Some (w, t) -> m = 0%nat ->
      (do leaf <- exit_node e row (Z.of_nat (m + i)); do s <- leaf_score e (Z.of_nat (m + i)) leaf; Ok (leaf, s)) = Ok (fst (exit_leaf row t), nf32 (nmul (snd (exit_leaf row t)) w))) by (intros m i w t Hi ->; apply K, Hi).
    clear K. assert (K : forall i w t, nth_error l i = Some (w, t) ->
      (do leaf <- exit_node e row (Z.of_nat (0 + i)); do s <- leaf_score e (Z.of_nat (0 + i)) leaf; Ok (leaf, s)) = Ok (fst (exit_leaf row t), nf32 (nmul (snd (exit_leaf row t)) w))) by (intros; apply K'; auto).
    clear K'. revert K. generalize 0%nat as m. induction l as [|[w t] l IH]; intros m K; cbn [length seq map]; constructor.
    + specialize (K 0%nat w t eq_refl). rewrite Nat.add_0_r in K. exact K.
    + apply IH. intros i w' t' Hi. specialize (K (S i) w' t' Hi). replace (m + S i)%nat with (S m + i)%nat in K by lia. exact K.
Qed.

(** A root outside the arrays. *)
Lemma stands_walk_any (e : ensemble N) row t : stands e t -> forall fuel, (height t < fuel)%nat ->
  walk fuel e row (mark t) = Ok (fst (exit_leaf row t)) \/ walk fuel e row (mark t) = Err MemFault.
Proof.
  induction t as [i v|i f x l IHl r IHr]; intros H fuel Hfuel; (destruct fuel as [|fuel]; [cbn [height] in Hfuel; lia|]).
  - left. apply stands_walk; [exact H|constructor|exact Hfuel].
  - pose proof H as (H1 & H2 & H3 & H4 & Hl & Hr). cbn [height] in Hfuel. cbn [walk mark exit_leaf].
    pose proof (stands_range e l Hl) as Rl. pose proof (stands_range e r Hr) as Rr.
    rewrite (mem_get_zget _ _ _ H1), (mem_get_zget _ _ _ H2), (mem_get_zget _ _ _ H3), (mem_get_zget _ _ _ H4).
    cbn [bind]. replace (mark l =? -1) with false by (symmetry; apply Z.eqb_neq; lia).
    replace (mark r =? -1) with false by (symmetry; apply Z.eqb_neq; lia).
    destruct (zget row f) as [y|] eqn:Y; [|right; unfold mem_get; rewrite Y; reflexivity].
    rewrite (mem_get_zget _ _ _ Y). cbn [bind]. pose proof (zget_range _ _ _ Y) as RY. rewrite (zget_some_nth row f nzero RY) in Y. injection Y as <-.
    destruct (nleb _ x); [apply IHl|apply IHr]; auto; lia.
Qed.
Lemma fault_from (e : ensemble N) row (ps : list (nat * tree Z N)) : forall m o y,
  (forall i p, nth_error ps i = Some p -> zget (e_root e) (Z.of_nat (o + i)) = Some (mark (snd p)) /\ zget (e_weight e) (Z.of_nat (o + i)) = Some none /\
     (fst p = 0%nat /\ mark (snd p) = Z.of_nat (length (e_left e)) \/ (0 < fst p)%nat /\ stands e (snd p) /\ (height (snd p) <= length (e_left e))%nat)) ->
  nth_error (map fst ps) m = Some 0%nat ->
  foldM (fun y t => do leaf <- exit_node e row t; do s <- leaf_score e t leaf; Ok (nf32 (nadd y s))) (map Z.of_nat (seq o (length ps))) y = Err MemFault.
Proof.
  induction ps as [|p ps IH]; intros m o y H M; [destruct m; discriminate|].
  cbn [length seq map foldM]. destruct (H 0%nat p eq_refl) as (R & W & C). rewrite Nat.add_0_r in R, W.
  unfold exit_node at 1. rewrite (mem_get_zget _ _ _ R). cbn [bind]. destruct C as [(Z0 & C)|(P0 & C & Hh)].
  - replace (walk (S (length (e_left e))) e row (mark (snd p))) with (@Err Z MemFault); [reflexivity|]. cbn [walk]. unfold mem_get at 1.
    replace (zget (e_left e) (mark (snd p))) with (@None Z); [reflexivity|]. rewrite C, zget_nth. symmetry. apply nth_error_None. lia.
  - destruct (stands_walk_any e row (snd p) C (S (length (e_left e))) ltac:(lia)) as [-> | ->]; [|reflexivity]. cbn [bind].
    unfold leaf_score at 1. rewrite (mem_get_zget _ _ _ (stands_exit e row _ C)). cbn [bind]. rewrite (mem_get_zget _ _ _ W). cbn [bind].
    destruct m as [|m]; [cbn in M; injection M as M; lia|]. apply (IH m (S o)); [|exact M]. intros i q Hq. destruct (H (S i) q Hq) as (A & B & D).
    replace (S o + i)%nat with (o + S i)%nat by lia. auto.
Qed.
Lemma fault_row (e : ensemble N) ps m row : e_ntrees e = Z.of_nat (length ps) ->
  (forall i (p : nat * tree Z N), nth_error ps i = Some p -> zget (e_root e) (Z.of_nat i) = Some (mark (snd p)) /\ zget (e_weight e) (Z.of_nat i) = Some none /\
     (fst p = 0%nat /\ mark (snd p) = Z.of_nat (length (e_left e)) \/ (0 < fst p)%nat /\ stands e (snd p) /\ (height (snd p) <= length (e_left e))%nat)) ->
  nth_error (map fst ps) m = Some 0%nat -> score_instance e row = Err MemFault.
Proof. intros En H M. unfold score_instance. rewrite En, zrange_seq. apply (fault_from e row ps m 0 nzero H M). Qed.
End Model.

Section Kept.
Context {N : num}.
Variable (h c : text -> N) (us : list (tree (Z * Z) text)) (n : nat).
Let conv2 (p : nat * tree (Z * Z) text) : tree Z N := cut_tree (fst p) (convert h c (relabel snd (snd p))).
Lemma kept_alike : Forall2 alike (map conv2 (pieces n us)) (kept_trees n (map (convert h c) (map (relabel fst) us))).
Proof.
  rewrite kept_pieces, map_map, (pieces_map (fun t => convert h c (relabel fst t))) by (intros; rewrite size_convert, size_relabel; reflexivity).
  rewrite map_map. induction (pieces n us) as [|[k u] ps IH]; cbn [map]; constructor; [|exact IH]. unfold conv2. cbn [fst snd].
  rewrite <- !relabel_convert, !cut_relabel. split; [rewrite !splits_relabel; reflexivity|]. intros row. rewrite !exit_relabel. reflexivity.
Qed.
(** The arrays after the loop. *)
Variable e : ensemble N.
Hypothesis NT : e_ntrees e = Z.of_nat (length (pieces n us)).
Hypothesis LR : length (e_root e) = length (pieces n us).
Hypothesis LW : length (e_weight e) = length (pieces n us).
Hypothesis LL : length (e_left e) = there n us.
Hypothesis CELLS : forall i p, nth_error (pieces n us) i = Some p ->
  zget (e_root e) (Z.of_nat i) = Some (snd (mark (snd p))) /\ zget (e_weight e) (Z.of_nat i) = Some none /\
  (fst p = 0%nat /\ snd (mark (snd p)) = 0 + Z.of_nat (there n us) /\ S i = length (pieces n us) \/
   (0 < fst p)%nat /\ stands e (conv2 p)).
Lemma ext_map {A B} (g : A -> B) (l : list A) (l' : list B) : length l' = length l -> (forall i a, nth_error l i = Some a -> nth_error l' i = Some (g a)) -> l' = map g l.
Proof.
  revert l'. induction l as [|x l IH]; intros [|y l'] H K; try discriminate; [reflexivity|]. cbn [map]. f_equal.
  - specialize (K 0%nat x eq_refl). cbn in K. congruence.
  - apply IH; [cbn in H; lia|]. intros i a I. exact (K (S i) a I).
Qed.
Lemma conv2_mark p : mark (conv2 p) = snd (mark (snd p)).
Proof. unfold conv2. rewrite mark_cut, mark_convert, mark_relabel. reflexivity. Qed.
Lemma conv2_height i p : nth_error (pieces n us) i = Some p -> (0 < fst p)%nat -> (height (conv2 p) <= length (e_left e))%nat.
Proof.
  intros H P. destruct (pieces_le us n i p H) as [L1 L2]. unfold conv2. set (t := convert h c (relabel snd (snd p))).
  assert (Z : size t = size (snd p)) by (unfold t; rewrite size_convert, size_relabel; reflexivity).
  destruct (Nat.eq_dec (fst p) (size t)) as [E|E].
  - rewrite cut_all_of by lia. pose proof (height_size t). lia.
  - pose proof (height_cut t (fst p) ltac:(lia)). lia.
Qed.
Lemma model_stands : ~ no_node n (map (relabel fst) us) -> stands_all e (map conv2 (pieces n us)) (map (fun _ => none) (pieces n us)).
Proof.
  intros NN. assert (POS : forall i p, nth_error (pieces n us) i = Some p -> (0 < fst p)%nat).
  { intros i p H. destruct (Nat.eq_dec (fst p) 0) as [E|E]; [|lia]. exfalso. apply NN, no_node_pieces. exists i, (fst p, relabel fst (snd p)). split; [|exact E].
    rewrite (pieces_map (relabel fst)) by (intros; apply size_relabel). rewrite (map_nth_error _ _ _ H). reflexivity. }
  unfold stands_all. rewrite !map_length. split; [exact NT|]. split; [|split; [|split; [reflexivity|split]]].
  - rewrite map_map. apply ext_map; [exact LR|]. intros i p H. rewrite <- zget_nth. destruct (CELLS i p H) as (C1 & _). rewrite C1, conv2_mark. reflexivity.
  - apply (ext_map (fun _ => none)); [exact LW|]. intros i p H. rewrite <- zget_nth. apply (CELLS i p H).
  - apply Forall_map, Forall_forall. intros p I. apply In_nth_error in I as (i & I). destruct (CELLS i p I) as (_ & _ & [(Z & _)|(_ & S)]); [specialize (POS i p I); lia|exact S].
  - apply Forall_map, Forall_forall. intros p I. apply In_nth_error in I as (i & I). apply (conv2_height i p I), (POS i p I).
Qed.
Lemma model_fault : no_node n (map (relabel fst) us) -> forall row, score_instance e row = Err MemFault.
Proof.
  intros NN row. apply no_node_pieces in NN as (i & q & H & Q). rewrite (pieces_map (relabel fst)) in H by (intros; apply size_relabel).
  rewrite nth_error_map in H. destruct (nth_error (pieces n us) i) as [p|] eqn:P; [|discriminate]. injection H as <-. cbn [fst] in Q.
  apply (fault_row e (map (fun p => (fst p, conv2 p)) (pieces n us)) i row).
  - rewrite map_length. exact NT.
  - intros j r J. rewrite nth_error_map in J. destruct (nth_error (pieces n us) j) as [p'|] eqn:P'; [|discriminate]. injection J as <-. cbn [fst snd].
    destruct (CELLS j p' P') as (C1 & C2 & C3). rewrite conv2_mark. split; [exact C1|]. split; [exact C2|]. destruct C3 as [(C3 & C4 & _)|(C3 & C4)]; [left; rewrite LL; split; [exact C3|lia]|right].
    split; [exact C3|]. split; [exact C4|]. eapply conv2_height; eauto.
  - rewrite map_map. cbn [fst]. rewrite nth_error_map, P. cbn [option_map]. rewrite Q. reflexivity.
Qed.
End Kept.

Section Xgb.
Context {N : num}.
Variable rd : text -> option N.
Variable lower : N -> N.
Notation cell := (cell_of rd).
Lemma annotate_order ts : forall a, in_order a (annotate_all a ts).
Proof.
  induction ts as [|t ts IH]; intros a; cbn [annotate_all in_order]; [auto|]. rewrite size_annotate. split; [|apply IH].
  rewrite <- marks_relabel, annotate_snd. apply marks_preorder.
Qed.
(** The arrays built from the first [n] lines. *)
Lemma xgb_first_of ts ls f n : xgb_lines 0 ts ls -> file_text f (firstn n ls) -> Forall (xgb_ok rd) ts ->
  let us := annotate_all 0 ts in let h := fun x => lower (cell x) in
  exists e, xgb_load rd lower f = Ok e /\
    e_ntrees e = Z.of_nat (length (pieces n us)) /\ length (e_root e) = length (pieces n us) /\ length (e_weight e) = length (pieces n us) /\
    length (e_left e) = there n us /\
    forall i p, nth_error (pieces n us) i = Some p ->
      zget (e_root e) (Z.of_nat i) = Some (snd (mark (snd p))) /\ zget (e_weight e) (Z.of_nat i) = Some none /\
      (fst p = 0%nat /\ snd (mark (snd p)) = 0 + Z.of_nat (there n us) /\ S i = length (pieces n us) \/
       (0 < fst p)%nat /\ stands e (cut_tree (fst p) (convert h cell (relabel snd (snd p))))).
Proof.
  intros D F' G us h. unfold xgb_load. rewrite (file_lines_text _ _ F'). unfold dump_count.
  assert (US : map (relabel fst) us = ts) by apply annotate_all_fst.
  rewrite (count_cut xgb_node xgb_leaf "<" comma_tail xgb_node_ok xgb_leaf_ok 0 ts ls D). cbn [fst snd]. rewrite !Z.add_0_l.
  assert (PU : pieces n ts = map (fun p => (fst p, relabel fst (snd p))) (pieces n us)).
  { rewrite <- (pieces_map (relabel fst)) by (intros; apply size_relabel). rewrite US. reflexivity. }
  assert (P1 : length (pieces n ts) = length (pieces n us)) by (rewrite PU, map_length; reflexivity).
  assert (P2 : there n ts = there n us) by (unfold there; rewrite PU, map_map; reflexivity).
  rewrite P1, P2.
  destruct (initialize_ok (N:=N) (length (pieces n us)) (there n us)) as (e0 & I1 & I2 & I3 & I4 & I5 & I6 & I7 & I8).
  rewrite I1. cbn [bind].
  destruct (cut_loop rd xgb_node xgb_leaf xgb_number (xgb_thr rd lower) h "<" comma_tail xgb_node_ok xgb_leaf_ok 0 us ls) with
    (m := n) (kn := 0%nat) (a := 0) (e := e0) (root := 0) (num := 0) (b := @None N) (lr := @None N) as (s & C1 & _ & _ & (S1 & S2 & S3 & S4 & S5 & _) & _ & _ & C2).
  { rewrite US. exact D. } { reflexivity. } { reflexivity. } { apply xgb_good. exact G. } { apply annotate_order. }
  { rewrite I6. exact I7. } { lia. } { lia. } { exact I8. } { rewrite I4, repeat_length. lia. } { rewrite I5, repeat_length. lia. }
  exists (d_ens s). split; [unfold xgb_step; fold xgb_number; rewrite C1; reflexivity|].
  rewrite S1, S3, S4, S5, I2, I4, I5, I6, !repeat_length. do 4 (split; [reflexivity|]). exact C2.
Qed.

Theorem xgb_beginning_of ts ls f n X : xgb_lines 0 ts ls -> file_text f (firstn n ls) -> Forall (xgb_ok rd) ts -> ~ no_node n ts ->
  let kept := kept_trees n (map (convert (fun x => lower (cell x)) cell) ts) in
  let ws := map (fun _ => none) kept in
  (forall row, In row X -> covers row kept) ->
  exists e, xgb_load rd lower f = Ok e /\
    basic_scoring e X = Ok (map (ensemble_score ws kept) X) /\
    exists leaves, detailed_scoring e X = Ok (leaves, map (tree_scores ws kept) X).
Proof.
  intros D F G NN kept ws C. destruct (xgb_first_of ts ls f n D F G) as (e & E & H1 & H2 & H3 & H4 & H5). exists e. split; [exact E|].
  pose proof (annotate_all_fst ts 0) as US. set (us := annotate_all 0 ts) in *.
  pose proof (kept_alike (fun x => lower (cell x)) cell us n) as A. rewrite US in A. fold kept in A.
  pose proof (model_stands (fun x => lower (cell x)) cell us n e H1 H2 H3 H4 H5) as S. rewrite US in S. specialize (S NN).
  replace (map (fun _ => none) (pieces n us)) with ws in S.
  2:{ unfold ws. apply map_const. apply Forall2_length' in A. rewrite map_length in A. symmetry. exact A. }
  assert (C' : forall row, In row X -> covers row (map (fun p => cut_tree (fst p) (convert (fun x => lower (cell x)) cell (relabel snd (snd p)))) (pieces n us))).
  { intros row R. eapply alike_covers; [exact A|apply C, R]. }
  split.
  - eapply eq_trans; [apply (stands_score e _ ws X S C')|]. f_equal. apply map_ext. intros row. unfold ensemble_score. rewrite (alike_scores _ _ row A). reflexivity.
  - destruct (stands_detailed e _ ws X S C') as (leaves & L). exists leaves. eapply eq_trans; [exact L|]. do 2 f_equal. apply map_ext. intros row. apply (alike_scores _ _ row A).
Qed.
Theorem xgb_no_node_of ts ls f n X : xgb_lines 0 ts ls -> file_text f (firstn n ls) -> Forall (xgb_ok rd) ts -> no_node n ts -> X <> [] ->
  exists e, xgb_load rd lower f = Ok e /\ basic_scoring e X = Err MemFault.
Proof.
  intros D F G NN NE. destruct (xgb_first_of ts ls f n D F G) as (e & E & H1 & H2 & H3 & H4 & H5). exists e. split; [exact E|].
  pose proof (annotate_all_fst ts 0) as US. set (us := annotate_all 0 ts) in *.
  pose proof (model_fault (fun x => lower (cell x)) cell us n e H1 H2 H3 H4 H5) as S. rewrite US in S. specialize (S NN).
  destruct X as [|row X]; [congruence|]. unfold basic_scoring. cbn [mapM]. rewrite S. reflexivity.
Qed.
Theorem xgb_beginning ts ls f n X : xgb_lines 0 ts ls -> file_text f ls -> Forall (xgb_ok rd) ts -> ~ no_node n ts ->
  let kept := kept_trees n (map (convert (fun x => lower (cell x)) cell) ts) in
  let ws := map (fun _ => none) kept in
  (forall row, In row X -> covers row kept) ->
  exists e, xgb_load rd lower (concat (firstn n ls)) = Ok e /\
    basic_scoring e X = Ok (map (ensemble_score ws kept) X) /\
    exists leaves, detailed_scoring e X = Ok (leaves, map (tree_scores ws kept) X).
Proof. intros D F. exact (xgb_beginning_of ts ls _ n X D (file_first f ls F n)). Qed.
Theorem xgb_no_node ts ls f n X : xgb_lines 0 ts ls -> file_text f ls -> Forall (xgb_ok rd) ts -> no_node n ts -> X <> [] ->
  exists e, xgb_load rd lower (concat (firstn n ls)) = Ok e /\ basic_scoring e X = Err MemFault.
Proof. intros D F. exact (xgb_no_node_of ts ls _ n X D (file_first f ls F n)). Qed.
End Xgb.

Section Sk.
Context {N : num}.
Variable rd : text -> option N.
Notation cell := (cell_of rd).
(** Nodes numbered from 0 in the order of the lines. *)
Definition sk_order (t : tree Z text) : Prop := marks t = zrange 0 (Z.of_nat (size t)).
Lemma both_order ts : Forall sk_order ts -> forall a, in_order a (both_all a ts).
Proof.
  induction 1 as [|t ts H _ IH]; intros a; cbn [both_all in_order]; [auto|]. unfold both. rewrite size_relabel. split; [|apply IH].
  rewrite marks_relabel, map_map. cbn [snd]. rewrite H. apply map_zrange.
Qed.
Lemma order_own t : sk_order t -> own_numbers t.
Proof.
  intros H. split; [|rewrite H; apply Permutation_refl]. unfold sk_order in H. pose proof (size_pos t). rewrite zrange_cons in H by lia. destruct t; cbn [marks mark] in *; congruence.
Qed.
Lemma order_ok ts : Forall (fun t => fits16 t /\ Forall (readable rd) (values t) /\ sk_order t) ts -> Forall (sk_ok rd) ts /\ Forall sk_order ts.
Proof. intros H. split; eapply Forall_impl; [|exact H| |exact H]; intros t (A & B & C); [split; [exact A|split; [exact B|apply order_own, C]]|exact C]. Qed.
Lemma sk_first ts base lr ls f n b l : sk_lines ts base lr ls -> file_text f ls -> Forall (fun t => fits16 t /\ Forall (readable rd) (values t) /\ sk_order t) ts ->
  rd base = Some b -> rd lr = Some l ->
  let us := both_all 0 ts in
  exists e, sk_load rd (concat (firstn (2 + n) ls)) = Ok (e, Some b, Some l) /\
    e_ntrees e = Z.of_nat (length (pieces n us)) /\ length (e_root e) = length (pieces n us) /\ length (e_weight e) = length (pieces n us) /\
    length (e_left e) = there n us /\
    forall i p, nth_error (pieces n us) i = Some p ->
      zget (e_root e) (Z.of_nat i) = Some (snd (mark (snd p))) /\ zget (e_weight e) (Z.of_nat i) = Some none /\
      (fst p = 0%nat /\ snd (mark (snd p)) = 0 + Z.of_nat (there n us) /\ S i = length (pieces n us) \/
       (0 < fst p)%nat /\ stands e (cut_tree (fst p) (convert cell cell (relabel snd (snd p))))).
Proof.
  intros D F G RB RL us. pose proof (file_first f ls F (2 + n)) as F'. destruct (order_ok ts G) as [G1 G2]. destruct D as [nb nl ls Q1 Q2 N1 N2 E1 E2 D].
  change (2 + n)%nat with (S (S n)) in *. cbn [firstn] in F' |- *.
  unfold sk_load. rewrite (file_lines_text _ _ F'). unfold dump_count. cbn [fold_left].
  destruct (header_count "base_score=" base nb) as (A1 & A2 & A3); [cbn; intuition discriminate|reflexivity|assumption|assumption|].
  destruct (header_count "learning_rate=" lr nl) as (B1 & B2 & B3); [cbn; intuition discriminate|reflexivity|assumption|assumption|].
  rewrite A1, A2, A3, B1, B2, B3. cbn [fst snd]. rewrite !Z.add_0_l.
  assert (US : map (relabel fst) us = ts) by apply both_all_fst.
  rewrite (count_cut sk_node sk_leaf "<=" no_tail sk_node_ok sk_leaf_ok 0 ts ls D). cbn [fst snd]. rewrite !Z.add_0_l.
  assert (PU : pieces n ts = map (fun p => (fst p, relabel fst (snd p))) (pieces n us)).
  { rewrite <- (pieces_map (relabel fst)) by (intros; apply size_relabel). rewrite US. reflexivity. }
  assert (P1 : length (pieces n ts) = length (pieces n us)) by (rewrite PU, map_length; reflexivity).
  assert (P2 : there n ts = there n us) by (unfold there; rewrite PU, map_map; reflexivity).
  rewrite P1, P2.
  destruct (initialize_ok (N:=N) (length (pieces n us)) (there n us)) as (e0 & I1 & I2 & I3 & I4 & I5 & I6 & I7 & I8).
  rewrite I1. cbn [bind].
  destruct (cut_loop rd sk_node sk_leaf sk_number (read_cell rd) cell "<=" no_tail sk_node_ok sk_leaf_ok 0 us ls) with
    (m := n) (kn := 0%nat) (a := 0) (e := e0) (root := 0) (num := 0) (b := Some b) (lr := Some l) as (s & C1 & CB & CL & (S1 & S2 & S3 & S4 & S5 & _) & _ & _ & C2).
  { rewrite US. exact D. } { reflexivity. } { reflexivity. } { apply sk_good. exact G1. } { apply both_order. exact G2. }
  { rewrite I6. exact I7. } { lia. } { lia. } { exact I8. } { rewrite I4, repeat_length. lia. } { rewrite I5, repeat_length. lia. }
  exists (d_ens s). split.
  - cbn [foldM]. unfold sk_step at 1. rewrite (header_line "base_score=") by auto.
    destruct base as [|c base]; [congruence|]. rewrite RB. cbn [of_option bind d_ens d_root d_num d_queue d_base d_lr].
    unfold sk_step at 1. rewrite (header_line "learning_rate=") by auto.
    destruct lr as [|c' lr]; [congruence|]. rewrite RL.
    replace (key_match "base_score=" (lit "learning_rate=" ++ (c' :: lr) ++ nl)) with (@None text) by reflexivity.
    cbn [of_option bind d_ens d_root d_num d_queue d_base d_lr].
    rewrite sk_steps by (apply Forall_firstn'; eapply dump_trees_header; eauto). rewrite C1. cbn [bind]. rewrite CB, CL. reflexivity.
  - rewrite S1, S3, S4, S5, I2, I4, I5, I6, !repeat_length. do 4 (split; [reflexivity|]). exact C2.
Qed.
Theorem sk_beginning ts base lr ls f n b l X : sk_lines ts base lr ls -> file_text f ls ->
  Forall (fun t => fits16 t /\ Forall (readable rd) (values t) /\ marks t = zrange 0 (Z.of_nat (size t))) ts ->
  rd base = Some b -> rd lr = Some l -> ~ no_node n ts ->
  let kept := kept_trees n (map (convert cell cell) ts) in
  let ws := map (fun _ => none) kept in
  (forall row, In row X -> covers row kept) ->
  exists e, sk_load rd (concat (firstn (2 + n) ls)) = Ok (e, Some b, Some l) /\
    basic_scoring e X = Ok (map (ensemble_score ws kept) X) /\
    exists leaves, detailed_scoring e X = Ok (leaves, map (tree_scores ws kept) X).
Proof.
  intros D F G RB RL NN kept ws C. destruct (sk_first ts base lr ls f n b l D F G RB RL) as (e & E & H1 & H2 & H3 & H4 & H5). exists e. split; [exact E|].
  pose proof (both_all_fst ts 0) as US. set (us := both_all 0 ts) in *.
  pose proof (kept_alike cell cell us n) as A. rewrite US in A. fold kept in A.
  pose proof (model_stands cell cell us n e H1 H2 H3 H4 H5) as S. rewrite US in S. specialize (S NN).
  replace (map (fun _ => none) (pieces n us)) with ws in S.
  2:{ unfold ws. apply map_const. apply Forall2_length' in A. rewrite map_length in A. symmetry. exact A. }
  assert (C' : forall row, In row X -> covers row (map (fun p => cut_tree (fst p) (convert cell cell (relabel snd (snd p)))) (pieces n us))).
  { intros row R. eapply alike_covers; [exact A|apply C, R]. }
  split.
  - eapply eq_trans; [apply (stands_score e _ ws X S C')|]. f_equal. apply map_ext. intros row. unfold ensemble_score. rewrite (alike_scores _ _ row A). reflexivity.
  - destruct (stands_detailed e _ ws X S C') as (leaves & L). exists leaves. eapply eq_trans; [exact L|]. do 2 f_equal. apply map_ext. intros row. apply (alike_scores _ _ row A).
Qed.
Theorem sk_no_node ts base lr ls f n b l X : sk_lines ts base lr ls -> file_text f ls ->
  Forall (fun t => fits16 t /\ Forall (readable rd) (values t) /\ marks t = zrange 0 (Z.of_nat (size t))) ts ->
  rd base = Some b -> rd lr = Some l -> no_node n ts -> X <> [] ->
  exists e, sk_load rd (concat (firstn (2 + n) ls)) = Ok (e, Some b, Some l) /\ basic_scoring e X = Err MemFault.
Proof.
  intros D F G RB RL NN NE. destruct (sk_first ts base lr ls f n b l D F G RB RL) as (e & E & H1 & H2 & H3 & H4 & H5). exists e. split; [exact E|].
  pose proof (both_all_fst ts 0) as US. set (us := both_all 0 ts) in *.
  pose proof (model_fault cell cell us n e H1 H2 H3 H4 H5) as S. rewrite US in S. specialize (S NN).
  destruct X as [|row X]; [congruence|]. unfold basic_scoring. cbn [mapM]. rewrite S. reflexivity.
Qed.
End Sk.
