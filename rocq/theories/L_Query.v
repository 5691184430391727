(** Per-query slices: what query_iterator yields, and the loop that fills one slot per query. *)
From Coq Require Import List ZArith Lia Bool Permutation Sorted.
From Verif Require Import Base Lists M_Dataset S_Dataset L_Dataset L_Dataset2 L_Dataset3.
Import ListNotations.
Local Open Scope Z_scope.

Lemma slice_nat {A} (a b : nat) (l : list A) :
  slice (Z.of_nat a) (Z.of_nat b) l = firstn (b - a) (skipn a l).
Proof.
  unfold slice, slice_bound. destruct (Z.ltb_spec (Z.of_nat a) 0); [lia|]. destruct (Z.ltb_spec (Z.of_nat b) 0); [lia|].
  rewrite !Nat2Z.id. destruct (Nat.le_gt_cases (length l) a) as [H1|H1].
  - rewrite (Nat.min_l _ a) by lia. rewrite !skipn_all2 by lia. rewrite !firstn_nil. auto.
  - rewrite (Nat.min_r _ a) by lia. destruct (Nat.le_gt_cases (length l) b).
    + rewrite (Nat.min_l _ b) by lia. rewrite !firstn_all2; auto; rewrite skipn_length; lia.
    + rewrite (Nat.min_r _ b) by lia. auto.
Qed.

Lemma select_slice {A} q (ids : list Z) (l : list A) s e :
  length l = length ids -> (s <= e <= length ids)%nat ->
  (forall j, nth_error ids j = Some q <-> (s <= j < e)%nat) ->
  slice (Z.of_nat s) (Z.of_nat e) l = select q ids l.
Proof.
  intros HL He HJ. rewrite slice_nat. unfold select.
  assert (Hc : combine ids l = combine (firstn s ids) (firstn s l)
                ++ combine (firstn (e - s) (skipn s ids)) (firstn (e - s) (skipn s l))
                ++ combine (skipn e ids) (skipn e l)).
  { assert (C : forall {B} (a b : list Z) (a' b' : list B), length a = length a' ->
        combine (a ++ b) (a' ++ b') = combine a a' ++ combine b b').
    { induction a; intros b [|x a'] b'; cbn; try discriminate; auto. intros. f_equal. apply IHa. lia. }
    rewrite <- !C.
    - f_equal; replace e with (s + (e - s))%nat at 2 by lia; rewrite <- skipn_skipn';
        rewrite !firstn_skipn; auto.
    - rewrite ?firstn_length, ?skipn_length. lia.
    - rewrite ?firstn_length, ?skipn_length. lia. }
  rewrite Hc, !filter_app, !map_app.
  rewrite (filter_false _ (combine (firstn s ids) (firstn s l))).
  2:{ intros [x v] Hx. apply in_combine_l in Hx. cbn. apply Z.eqb_neq. intros ->.
      apply In_nth_error in Hx. destruct Hx as [j Hj]. rewrite nth_error_firstn in Hj.
      destruct (Nat.ltb_spec j s); [|discriminate]. apply HJ in Hj. lia. }
  rewrite (filter_false _ (combine (skipn e ids) (skipn e l))).
  2:{ intros [x v] Hx. apply in_combine_l in Hx. cbn. apply Z.eqb_neq. intros ->.
      apply In_nth_error in Hx. destruct Hx as [j Hj]. rewrite nth_error_skipn in Hj.
      apply HJ in Hj. lia. }
  rewrite filter_true.
  2:{ intros [x v] Hx. apply in_combine_l in Hx. cbn. apply Z.eqb_eq.
      apply In_nth_error in Hx. destruct Hx as [j Hj]. rewrite nth_error_firstn in Hj.
      destruct (Nat.ltb_spec j (e - s)); [|discriminate]. rewrite nth_error_skipn in Hj.
      assert (nth_error ids (s + j) = Some q) by (apply HJ; lia). congruence. }
  cbn [map app]. rewrite app_nil_r.
  assert (M : forall {B} (a : list Z) (b : list B), length a = length b -> map snd (combine a b) = b).
  { induction a; intros [|x b]; cbn; try discriminate; auto. intros. f_equal. apply IHa. lia. }
  rewrite M; auto. rewrite !firstn_length, !skipn_length. lia.
Qed.

Section DSet.
Context {V : Type}.
Implicit Type d : dataset V.

Lemma iter_length nf X y ids d : ds_init (V:=V) nf X y ids = Ok d -> length (query_iterator d) = n_queries d.
Proof.
  intros H. destruct (ds_init_inv _ _ _ _ H) as [_ E]. subst d. unfold query_iterator, n_queries.
  cbn [ds_qids ds_offs].
  rewrite !combine_length, map_length. destruct (firsts ids) as [|a l]; cbn [length app tl]; auto.
  rewrite app_length. cbn [length]. lia.
Qed.

(** Entry [i] of query_iterator delimits the rows of the i-th query id. *)
Lemma iter_segment nf X y ids d i q s e :
  built nf X y ids d -> nth_error (query_iterator d) i = Some (q, (s, e)) ->
  nth_error (ds_qids d) i = Some q /\ (s <= e <= length ids)%nat /\
  forall j, nth_error ids j = Some q <-> (s <= j < e)%nat.
Proof.
  intros B Hi. pose proof B as (Hy & Hg & Hr & H).
  rewrite query_iterator_nth in Hi.
  destruct (nth_error (ds_qids d) i) as [q'|] eqn:Eq; [|discriminate].
  destruct (nth_error (ds_offs d) i) as [s'|] eqn:Es; [|discriminate].
  destruct (nth_error (ds_offs d) (S i)) as [e'|] eqn:Ee; [|discriminate].
  inversion Hi; subst q' s' e'. clear Hi. split; auto.
  assert (Hin : In q ids). { apply (ds_qids_In _ _ _ _ _ _ H). eapply nth_error_In; eauto. }
  destruct (C08_lemma _ _ _ _ _ q B) as [C8 _]. destruct (C8 Hin) as (s' & e' & E & J).
  assert (s' = s /\ e' = e) as [-> ->].
  { unfold get_query_offsets in E. destruct (existsb _ _); [|discriminate].
    assert (first_index q (ds_qids d) = i) as Efi.
    { pose proof (ds_qids_NoDup _ _ _ _ _ H) as ND.
      destruct (first_index_spec q (ds_qids d) (nth_error_In _ _ Eq)) as [F _].
      apply (proj1 (NoDup_nth_error _) ND); [apply nth_error_Some; congruence|congruence]. }
    rewrite Efi in E. rewrite (nth_error_nth _ _ _ Es), (nth_error_nth _ _ _ Ee) in E. inversion E; auto. }
  split; auto.
  assert (Hne : ids <> []) by (intros ->; destruct Hin).
  destruct (C01_lemma _ _ _ Hne H) as (_ & HS & HLast & _).
  assert (s < e)%nat by (eapply (StronglySorted_nth (i := i) (j := S i) HS); eauto).
  assert (nth_error ids (e - 1) = Some q) as G by (apply J; lia).
  assert (e - 1 < length ids)%nat by (apply nth_error_Some; congruence). lia.
Qed.

Lemma iter_select {A} nf X y ids d (l : list A) :
  built nf X y ids d -> length l = length ids ->
  map (fun t => slice (Z.of_nat (fst (snd t))) (Z.of_nat (snd (snd t))) l) (query_iterator d)
  = map (fun q => select q ids l) (ds_qids d).
Proof.
  intros B HL. apply nth_error_ext'. intros i. rewrite !nth_error_map'.
  pose proof B as (_ & _ & _ & H). pose proof (iter_length _ _ _ _ _ H) as Hlen.
  destruct (nth_error (query_iterator d) i) as [[q [s e]]|] eqn:E.
  - destruct (iter_segment _ _ _ _ _ _ _ _ _ B E) as (Eq & He & HJ). rewrite Eq. cbn [option_map fst snd].
    f_equal. apply select_slice; auto.
  - apply nth_error_None in E. rewrite Hlen in E. apply nth_error_None in E.
    rewrite E. auto.
Qed.

Lemma iter_qids nf X y ids d : ds_init (V:=V) nf X y ids = Ok d -> map fst (query_iterator d) = ds_qids d.
Proof.
  intros H. apply nth_error_ext'. intros i. rewrite nth_error_map', query_iterator_nth.
  pose proof (iter_length _ _ _ _ _ H) as HL.
  destruct (nth_error (ds_qids d) i) as [q|] eqn:Eq; auto.
  destruct (nth_error (query_iterator d) i) as [t|] eqn:E.
  - rewrite query_iterator_nth, Eq in E.
    destruct (nth_error (ds_offs d) i); [|discriminate]. destruct (nth_error (ds_offs d) (S i)); [|discriminate]. auto.
  - apply nth_error_None in E. assert (i < n_queries d)%nat by (unfold n_queries; apply nth_error_Some; congruence). lia.
Qed.
End DSet.

(** One slot per element, filled from left to right. *)
Lemma fill_slots {A B} (g : A -> res B) (l : list A) (pre : list B) (z : B) :
  foldM (fun acc t => do x <- g (snd t); py_set acc (Z.of_nat (fst t)) x)
        (combine (seq (length pre) (length l)) l) (pre ++ repeat z (length l))
  = do v <- mapM g l; Ok (pre ++ v).
Proof.
  revert pre. induction l as [|x l IH]; intros pre; cbn [length seq combine foldM mapM bind repeat].
  - reflexivity.
  - destruct (g x) as [v|e] eqn:Eg; cbn [fst snd bind]; [|rewrite Eg; reflexivity]. rewrite Eg. cbn [bind].
    unfold py_set at 1. rewrite app_length. cbn [length]. rewrite repeat_length.
    destruct (Z.ltb_spec (Z.of_nat (length pre)) 0); [lia|].
    destruct ((Z.of_nat (length pre) <? 0) || (Z.of_nat (length pre + S (length l)) <=? Z.of_nat (length pre)))%bool eqn:Eb.
    { apply orb_prop in Eb. destruct Eb as [Eb|Eb]; [apply Z.ltb_lt in Eb|apply Z.leb_le in Eb]; lia. }
    cbn [bind]. rewrite Nat2Z.id.
    assert (U : upd (pre ++ z :: repeat z (length l)) (length pre) v = (pre ++ [v]) ++ repeat z (length l)).
    { clear. induction pre; cbn; auto. f_equal. auto. }
    rewrite U. replace (S (length pre)) with (length (pre ++ [v])) by (rewrite app_length; cbn; lia).
    rewrite IH. destruct (mapM g l); cbn [bind]; auto. rewrite <- app_assoc. reflexivity.
Qed.

Lemma foldM_ext {A B} (f g : B -> A -> res B) l b : (forall b x, In x l -> f b x = g b x) -> foldM f l b = foldM g l b.
Proof.
  revert b. induction l as [|x l IH]; intros b H; cbn; auto. rewrite H by (left; auto).
  destruct (g b x); cbn; auto. apply IH. intros. apply H. right; auto.
Qed.
