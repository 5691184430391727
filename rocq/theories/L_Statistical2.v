(** The folds of _kfold_scoring. *)
From Coq Require Import List ZArith Bool Lia Permutation Sorted.
From Verif Require Import Base Lists Num M_Dataset S_Dataset L_Dataset L_Dataset2 L_Dataset3 L_Query M_Effectiveness M_Statistical S_Statistical.
Import ListNotations.
Local Open Scope Z_scope.

Section Masks.
Context {V : Type}.
Implicit Type d : dataset V.

Definition ids_of d (qs : list nat) : list Z := map (fun i => nth i (ds_qids d) 0) qs.

Lemma set_true_nth s e m j : nth_error (set_true s e m) j = option_map (fun b => if (s <=? j)%nat && (j <? e)%nat then true else b) (nth_error m j).
Proof.
  unfold set_true. rewrite nth_error_map', nth_error_combine, nth_error_seq.
  destruct (nth_error m j) as [b|] eqn:E; cbn [option_map].
  - destruct (Nat.ltb_spec j (length m)); [reflexivity|]. assert (j < length m)%nat by (apply nth_error_Some; congruence). lia.
  - destruct (Nat.ltb_spec j (length m)); reflexivity.
Qed.

Lemma segment_of nf X y ids d i : built nf X y ids d -> (i < n_queries d)%nat ->
  exists s e, nth_error (ds_offs d) i = Some s /\ nth_error (ds_offs d) (S i) = Some e /\ (s <= e <= length ids)%nat /\
  (forall j, nth_error ids j = Some (nth i (ds_qids d) 0) <-> (s <= j < e)%nat) /\ nth_error (query_iterator d) i = Some (nth i (ds_qids d) 0, (s, e)).
Proof.
  intros B Hi. pose proof B as (_ & _ & _ & H). pose proof (iter_length _ _ _ _ _ H) as L.
  destruct (nth_error (query_iterator d) i) as [[q [s e]]|] eqn:E; [|apply nth_error_None in E; lia].
  destruct (iter_segment _ _ _ _ _ _ _ _ _ B E) as (Eq & He & HJ). rewrite query_iterator_nth, Eq in E.
  destruct (nth_error (ds_offs d) i) as [s'|] eqn:Es; [|discriminate]. destruct (nth_error (ds_offs d) (S i)) as [e'|] eqn:Ee; [|discriminate].
  inversion E; subst. exists s, e. rewrite (nth_error_nth _ _ _ Eq). auto.
Qed.

Lemma test_mask nf X y ids d : built nf X y ids d -> forall qs p, Forall (fun i => (i < n_queries d)%nat) qs ->
  foldM (fun m q => do s <- of_option IndexError (nth_error (ds_offs d) q); do e <- of_option IndexError (nth_error (ds_offs d) (S q)); Ok (set_true s e m)) qs (map p ids)
  = Ok (map (fun x => memz (ids_of d qs) x || p x) ids).
Proof.
  intros B. induction qs as [|i qs IH]; intros p F; cbn [foldM]; [reflexivity|]. inversion F as [|? ? Hi F']; subst.
  destruct (segment_of _ _ _ _ _ i B Hi) as (s & e & -> & -> & He & HJ & _). cbn [of_option bind].
  assert (E : set_true s e (map p ids) = map (fun x => (x =? nth i (ds_qids d) 0) || p x) ids).
  { apply nth_error_ext'. intros j. rewrite set_true_nth, !nth_error_map'. destruct (nth_error ids j) as [x|] eqn:Ej; cbn [option_map]; [|reflexivity].
    f_equal. destruct (Z.eqb_spec x (nth i (ds_qids d) 0)) as [->|Hx].
    - apply HJ in Ej. destruct (Nat.leb_spec s j); [|lia]. destruct (Nat.ltb_spec j e); [reflexivity|lia].
    - destruct ((s <=? j)%nat && (j <? e)%nat) eqn:Eb; [|reflexivity]. apply andb_prop in Eb. destruct Eb as [E1 E2]. apply Nat.leb_le in E1. apply Nat.ltb_lt in E2.
      assert (nth_error ids j = Some (nth i (ds_qids d) 0)) by (apply HJ; lia). congruence. }
  rewrite E, IH by auto. f_equal. apply map_ext. intros x. unfold memz, ids_of. cbn [map existsb]. rewrite orb_assoc. f_equal. apply orb_comm.
Qed.

Lemma upd_map_false (p : Z -> bool) l i : NoDup l -> (i < length l)%nat -> upd (map p l) i false = map (fun x => p x && negb (x =? nth i l 0)) l.
Proof.
  intros ND Hi. apply nth_error_ext'. intros j. rewrite nth_error_upd, !nth_error_map', map_length.
  destruct (nth_error l j) as [x|] eqn:Ej; cbn [option_map].
  - destruct (Nat.eqb_spec i j) as [->|Hij].
    + assert (j < length l)%nat by (apply nth_error_Some; congruence). destruct (Nat.ltb_spec j (length l)); [|lia]. cbn [andb].
      rewrite (nth_error_nth _ _ _ Ej), Z.eqb_refl. cbn. rewrite andb_false_r. reflexivity.
    + cbn [andb]. destruct (Z.eqb_spec x (nth i l 0)) as [->|]; [|cbn; rewrite andb_true_r; reflexivity]. exfalso. apply Hij.
      apply (proj1 (NoDup_nth_error l) ND); [exact Hi|]. rewrite Ej. apply nth_error_nth'. exact Hi.
  - apply nth_error_None in Ej. destruct (Nat.eqb_spec i j) as [->|]; cbn [andb]; auto; lia.
Qed.

Lemma train_mask d : NoDup (ds_qids d) -> forall qs p, Forall (fun i => (i < n_queries d)%nat) qs ->
  foldM (fun m q => if (q <? length m)%nat then Ok (upd m q false) else Err IndexError) qs (map p (ds_qids d))
  = Ok (map (fun x => p x && negb (memz (ids_of d qs) x)) (ds_qids d)).
Proof.
  intros ND. induction qs as [|i qs IH]; intros p F; cbn [foldM].
  - cbn. f_equal. apply map_ext. intros. rewrite andb_true_r. reflexivity.
  - inversion F as [|? ? Hi F']; subst. rewrite map_length. unfold n_queries in Hi. destruct (Nat.ltb_spec i (length (ds_qids d))); [|lia]. cbn [bind].
    rewrite upd_map_false by auto. rewrite IH by auto. f_equal. apply map_ext. intros x. unfold memz, ids_of. cbn [map existsb]. rewrite negb_orb, andb_assoc. reflexivity.
Qed.

Lemma repeat_map {A B} (b : B) (l : list A) : repeat b (length l) = map (fun _ => b) l.
Proof. induction l; cbn; f_equal; auto. Qed.

Lemma sorted_slices {A} (l : list A) : forall (o : list nat) a, StronglySorted lt (a :: o) -> (last (a :: o) 0 <= length l)%nat ->
  concat (map (fun p => slice (Z.of_nat (fst p)) (Z.of_nat (snd p)) l) (combine (a :: o) o)) = slice (Z.of_nat a) (Z.of_nat (last (a :: o) 0%nat)) l.
Proof.
  induction o as [|b o IH]; intros a S Hl.
  - cbn [combine map concat last]. rewrite slice_nat, Nat.sub_diag. reflexivity.
  - change (combine (a :: b :: o) (b :: o)) with ((a, b) :: combine (b :: o) o). cbn [map concat fst snd]. inversion S as [|? ? S' F]; subst. rewrite IH; auto. change (last (a :: b :: o) 0%nat) with (last (b :: o) 0%nat) in *.
    assert (Hab : (a < b)%nat) by (inversion F; auto).
    assert (Hbl : (b <= last (b :: o) 0)%nat).
    { clear - S'. revert b S'. induction o as [|c o IH]; intros b S; [cbn; lia|]. inversion S as [|? ? S' F]; subst. inversion F; subst. specialize (IH c S'). change (last (b :: c :: o) 0%nat) with (last (c :: o) 0%nat). lia. }
    rewrite !slice_nat. set (z := last (b :: o) 0%nat) in *. clearbody z.
    replace (z - a)%nat with ((b - a) + (z - b))%nat by lia.
    replace (skipn b l) with (skipn (b - a) (skipn a l)) by (rewrite skipn_skipn'; f_equal; lia).
    generalize (skipn a l) as m, (b - a)%nat as x, (z - b)%nat as w. clear. intros m x w.
    revert x; induction m as [|v m IH]; intros [|x]; cbn; auto; [destruct w; reflexivity|]. f_equal. apply IH.
Qed.

Lemma query_rows_select nf X y ids d q : built nf X y ids d -> query_rows q d = select q ids (rows d).
Proof.
  intros B. unfold query_rows, select. rewrite (built_rows _ _ _ _ _ B). unfold rows_of.
  assert (G : forall (ids : list Z) (l : list (list V * V)), filter (fun r => fst r =? q) (combine ids l) = map snd (filter (fun p => fst p =? q) (combine ids (combine ids l)))).
  { clear. induction ids as [|x ids IH]; intros [|z l]; cbn [combine filter map]; auto. cbn [fst]. destruct (x =? q); cbn [map snd]; rewrite <- IH; reflexivity. }
  apply G.
Qed.

Lemma rows_length nf X y ids d : built nf X y ids d -> length (rows d) = length ids.
Proof.
  intros B. rewrite (built_rows _ _ _ _ _ B). destruct B as (Hy & _ & _ & H). apply ds_init_inv in H. destruct H as [Hx _].
  unfold rows_of. rewrite !combine_length. lia.
Qed.

Lemma rows_by_query nf X y ids d : built nf X y ids d -> rows d = concat (map (fun q => query_rows q d) (ds_qids d)).
Proof.
  intros B. pose proof B as (_ & _ & _ & H).
  assert (E : map (fun q => query_rows q d) (ds_qids d) = map (fun q => select q ids (rows d)) (ds_qids d)) by (apply map_ext; intros; eapply query_rows_select; eauto).
  rewrite E, <- (iter_select _ _ _ _ _ (rows d) B (rows_length _ _ _ _ _ B)).
  assert (E2 : map (fun t => slice (Z.of_nat (fst (snd t))) (Z.of_nat (snd (snd t))) (rows d)) (query_iterator d)
             = map (fun p => slice (Z.of_nat (fst p)) (Z.of_nat (snd p)) (rows d)) (map snd (query_iterator d))) by (rewrite map_map; reflexivity).
  rewrite E2. clear E E2.
  pose proof (rows_length _ _ _ _ _ B) as RL. destruct ids as [|x ids].
  - destruct (rows d); [|discriminate]. clear. generalize (map snd (query_iterator d)). intros l. induction l as [|[a b] l IH]; [reflexivity|]. cbn [map concat fst snd]. rewrite slice_nat, skipn_nil, firstn_nil. exact IH.
  - destruct (C01_lemma nf X y (ids := x :: ids) ltac:(discriminate) H) as (H0 & HS & HL & HN & _).
    assert (E : map snd (query_iterator d) = combine (ds_offs d) (tl (ds_offs d))).
    { unfold query_iterator. unfold n_queries in HN. assert (L : length (ds_qids d) = length (combine (ds_offs d) (tl (ds_offs d)))).
      { rewrite combine_length. destruct (ds_offs d); cbn [tl length] in *; lia. }
      revert L. generalize (ds_qids d) (combine (ds_offs d) (tl (ds_offs d))). clear. induction l as [|q l IH]; intros [|p m]; cbn; try discriminate; auto. intros. f_equal. apply IH. lia. }
    rewrite E. destruct (ds_offs d) as [|a o]; [discriminate|]. cbn in H0. inversion H0; subst a. cbn [tl].
    rewrite sorted_slices; auto; [|rewrite HL; lia]. rewrite HL. rewrite slice_nat. rewrite Nat.sub_0_r. cbn [skipn]. rewrite <- RL. rewrite firstn_all. reflexivity.
Qed.

Lemma sizes_by_query nf X y ids d : built nf X y ids d -> get_query_sizes d = map (fun q => length (query_rows q d)) (ds_qids d).
Proof.
  intros B. pose proof B as (_ & _ & _ & H). pose proof (iter_length _ _ _ _ _ H) as IL. apply nth_error_ext'. intros i. unfold get_query_sizes. rewrite !nth_error_map', nth_error_combine, nth_error_tl.
  destruct (Nat.lt_ge_cases i (n_queries d)) as [Hi|Hi].
  - destruct (segment_of _ _ _ _ _ i B Hi) as (s & e & Es & Ee & He & HJ & _). rewrite Es, Ee. rewrite (nth_error_nth' (ds_qids d) 0) by exact Hi. cbn [option_map fst snd]. f_equal.
    rewrite (query_rows_select _ _ _ _ _ _ B), <- (select_slice _ _ _ s e); auto; [|apply (rows_length _ _ _ _ _ B)].
    rewrite slice_nat, firstn_length, skipn_length, (rows_length _ _ _ _ _ B). lia.
  - rewrite (proj2 (nth_error_None (ds_qids d) i)) by exact Hi. cbn [option_map].
    destruct (nth_error (ds_offs d) i) as [s|] eqn:Es; [|reflexivity]. destruct (nth_error (ds_offs d) (S i)) as [e|] eqn:Ee; [|reflexivity]. exfalso.
    destruct ids as [|x ids].
    + apply ds_init_inv in H. destruct H as [_ ->]. cbn in Ee. destruct i; discriminate.
    + destruct (C01_lemma nf X y (ids := x :: ids) ltac:(discriminate) H) as (_ & _ & _ & HN & _).
      assert (S i < length (ds_offs d))%nat by (apply nth_error_Some; congruence). lia.
Qed.

Lemma rows_out_by_query nf X y ids d T : built nf X y ids d -> rows_out T d = concat (map (fun q => query_rows q d) (queries_out T d)).
Proof.
  intros B. unfold rows_out, queries_out. rewrite (rows_by_query _ _ _ _ _ B) at 1. induction (ds_qids d) as [|q l IH]; cbn [map concat filter]; auto.
  rewrite filter_app, IH. destruct (negb (memz T q)) eqn:E; cbn [map concat].
  - f_equal. apply filter_true. intros r Hr. unfold query_rows in Hr. apply filter_In in Hr. destruct Hr as [_ Hr]. apply Z.eqb_eq in Hr. rewrite Hr. exact E.
  - rewrite filter_false; [reflexivity|]. intros r Hr. unfold query_rows in Hr. apply filter_In in Hr. destruct Hr as [_ Hr]. apply Z.eqb_eq in Hr. rewrite Hr. exact E.
Qed.

Lemma masked_rows {A} nf X y ids d (p : Z -> bool) (f : Z * (list V * V) -> A) col : built nf X y ids d -> col = map f (rows d) ->
  np_mask (map p ids) col = Ok (map f (filter (fun r => p (fst r)) (rows d))).
Proof.
  intros B E. unfold np_mask. rewrite E, !map_length, (rows_length _ _ _ _ _ B), Nat.eqb_refl. f_equal. rewrite mask_select_map. f_equal.
  rewrite (built_rows _ _ _ _ _ B). unfold rows_of. apply mask_filter_fst.
  pose proof (rows_length _ _ _ _ _ B) as L. rewrite (built_rows _ _ _ _ _ B) in L. unfold rows_of in L. rewrite combine_length in L. destruct B as (Hy & _ & _ & H). apply ds_init_inv in H. destruct H as [Hx _].
  rewrite combine_length. lia.
Qed.

Lemma cols_of_rows nf X y ids d : built nf X y ids d -> ds_X d = map (fun r => fst (snd r)) (rows d) /\ ds_y d = map (fun r => snd (snd r)) (rows d).
Proof.
  intros B. rewrite (built_rows _ _ _ _ _ B). destruct B as (Hy & _ & _ & H). apply ds_init_inv in H. destruct H as [Hx ->]. cbn [ds_X ds_y]. unfold rows_of. clear - Hy Hx.
  revert X y Hy Hx. induction ids as [|i ids IH]; intros [|x X] [|v y]; cbn; try discriminate; auto. intros H1 H2. destruct (IH X y) as [E1 E2]; [lia|lia|].
  split; f_equal; auto.
Qed.
End Masks.

Section Fold.
Context {N : Num.num}.
Implicit Type d : dataset N.

Lemma fold_call_ok nf X y ids d qs : built nf X y ids d -> Forall (fun i => (i < n_queries d)%nat) qs ->
  exists c, fold_call d qs = Ok (map (memz (ids_of d qs)) ids, c) /\ fold_of d (ids_of d qs) c.
Proof.
  intros B F. pose proof B as (Hy & _ & _ & H). set (T := ids_of d qs).
  assert (Lids : n_instances d = length ids) by (pose proof (blank_length _ _ _ _ H Hy) as L; unfold blank in L; rewrite repeat_length in L; exact L).
  assert (M : fold_masks d qs = Ok (map (memz T) ids, map (fun q => negb (memz T q)) (ds_qids d))).
  { unfold fold_masks. rewrite Lids. unfold n_queries. rewrite !repeat_map, (test_mask _ _ _ _ _ B _ _ F). cbn [bind].
    rewrite (train_mask d (ds_qids_NoDup _ _ _ _ _ H) _ _ F). cbn [bind]. f_equal. f_equal. apply map_ext. intros. apply orb_false_r. }
  unfold fold_call. rewrite M. cbn [bind fst snd]. rewrite map_map. destruct (cols_of_rows _ _ _ _ _ B) as [EX EY].
  rewrite (masked_rows _ _ _ _ _ (fun x => negb (memz T x)) _ _ B EX). cbn [bind]. rewrite (masked_rows _ _ _ _ _ (fun x => negb (memz T x)) _ _ B EY). cbn [bind].
  rewrite (masked_rows _ _ _ _ _ (memz T) _ _ B EX). cbn [bind].
  assert (ES : np_mask (map (fun q => negb (memz T q)) (ds_qids d)) (get_query_sizes d) = Ok (map (fun q => length (query_rows q d)) (queries_out T d))).
  { rewrite (sizes_by_query _ _ _ _ _ B). unfold np_mask. rewrite !map_length, Nat.eqb_refl. f_equal. rewrite mask_select_map, mask_select_filter. reflexivity. }
  rewrite ES. cbn [bind]. eexists. split; [reflexivity|]. repeat split. cbn. apply (rows_out_by_query _ _ _ _ _ _ B).
Qed.
End Fold.
