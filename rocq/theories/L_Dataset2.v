(** Proofs about subset, split, kfold, lookups and equality of data sets. *)
From Coq Require Import List ZArith QArith Qround Lqa Lia Bool Permutation Sorted.
From Verif Require Import Base Lists M_Dataset S_Dataset L_Dataset.
Import ListNotations.
Local Open Scope Z_scope.

(** ** Subsequences *)

Lemma filter_positions {A} (p : A -> bool) (l : list A) :
  exists P, StronglySorted lt P /\
    forall i, nth_error (filter p l) i =
      match nth_error P i with Some k => nth_error l k | None => None end.
Proof.
  induction l as [|x xs (P & HS & HP)]; cbn.
  - exists []. split; [constructor|]. intros [|i]; auto.
  - assert (HS' : StronglySorted lt (map S P)).
    { eapply StronglySorted_map; [|exact HS]. intros; lia. }
    assert (HP' : forall i, nth_error (filter p xs) i =
       match nth_error (map S P) i with Some k => nth_error (x :: xs) k | None => None end).
    { intros i. rewrite HP, nth_error_map'. destruct (nth_error P i); auto. }
    destruct (p x).
    + exists (0%nat :: map S P). split.
      * constructor; auto. apply Forall_forall. intros k Hk. apply in_map_iff in Hk.
        destruct Hk as (m & <- & _). lia.
      * intros [|i]; cbn; auto.
    + exists (map S P). auto.
Qed.

Lemma grouped_filter p ids : grouped ids -> grouped (filter p ids).
Proof.
  intros Hg. destruct (filter_positions p ids) as (P & HS & HP).
  intros i j k a Hijk Hi Hk. rewrite HP in *.
  destruct (nth_error P i) as [pi|] eqn:Ei; [|discriminate].
  destruct (nth_error P k) as [pk|] eqn:Ek; [|discriminate].
  destruct (nth_error P j) as [pj|] eqn:Ej.
  - apply (Hg pi pj pk a); auto.
    assert (forall x y px py, (x <= y)%nat -> nth_error P x = Some px -> nth_error P y = Some py -> (px <= py)%nat) as M.
    { intros x y px py Hxy Hx Hy. destruct (Nat.eq_dec x y) as [->|]; [assert (px = py) by congruence; lia|].
      assert (px < py)%nat by (eapply (StronglySorted_nth (i := x) (j := y) HS); eauto; lia). lia. }
    split; [apply (M i j)|apply (M j k)]; auto; lia.
  - exfalso. apply nth_error_None in Ej. assert (k < length P)%nat by (apply nth_error_Some; congruence). lia.
Qed.

Lemma int32_filter p ids : int32_ids ids -> int32_ids (filter p ids).
Proof. unfold int32_ids. rewrite !Forall_forall. intros H q Hq. apply filter_In in Hq. apply H; tauto. Qed.

Lemma combine_mask {A B} m (l : list A) (l' : list B) :
  length l = length l' -> mask_select m (combine l l') = combine (mask_select m l) (mask_select m l').
Proof. intros E. destruct (mask_select_combine m l l'); auto; contradiction. Qed.

Lemma mask_filter_fst {B} (p : Z -> bool) (l : list Z) (l' : list B) :
  length l = length l' ->
  mask_select (map p l) (combine l l') = filter (fun r => p (fst r)) (combine l l').
Proof.
  revert l'; induction l as [|x xs IH]; destruct l' as [|y ys]; cbn; intros; auto; try lia.
  rewrite IH by lia. destruct (p x); auto.
Qed.

Lemma mask_length_filter {B} (p : Z -> bool) (l : list Z) (l' : list B) :
  length l = length l' -> length (mask_select (map p l) l') = length (filter p l).
Proof.
  intros E. rewrite (mask_select_length (map p l) l' l) by auto.
  rewrite mask_select_filter. auto.
Qed.

Section DS.
Context {V : Type}.
Implicit Types (d : dataset V).

Lemma built_inv nf X y ids d : built nf X y ids d ->
  ds_X d = X /\ ds_y d = y /\ ds_nf d = nf /\ length ids = length X.
Proof.
  intros (Hy & Hg & Hr & H). apply ds_init_inv in H. destruct H as [HX ->]. auto.
Qed.

Lemma built_rows nf X y ids d : built nf X y ids d -> rows d = rows_of ids X y.
Proof.
  intros B. unfold rows. rewrite (get_qids_built B).
  destruct (built_inv _ _ _ _ _ B) as (-> & -> & _ & _). auto.
Qed.

(** Row selection by a predicate on the id. *)
Lemma select_built nf X y ids d (p : Z -> bool) :
  built nf X y ids d ->
  exists d', ds_init nf (mask_select (map p ids) X) (mask_select (map p ids) y)
                     (filter p ids) = Ok d' /\
    built nf (mask_select (map p ids) X) (mask_select (map p ids) y) (filter p ids) d' /\
    rows d' = filter (fun r => p (fst r)) (rows d).
Proof.
  intros B. pose proof B as (Hy & Hg & Hr & H).
  destruct (built_inv _ _ _ _ _ B) as (_ & _ & _ & HX).
  set (X' := mask_select (map p ids) X). set (y' := mask_select (map p ids) y).
  assert (HX' : length (filter p ids) = length X').
  { unfold X'. rewrite mask_length_filter; auto. }
  assert (Hy' : length y' = length (filter p ids)).
  { unfold y'. rewrite mask_length_filter; auto. }
  rewrite (ds_init_ok nf X' y' (filter p ids) HX'). eexists. split; [reflexivity|].
  match goal with |- built _ _ _ _ ?d' /\ _ => set (D := d') end.
  assert (B' : built nf X' y' (filter p ids) D).
  { split; auto. split; [apply grouped_filter; auto|]. split; [apply int32_filter; auto|].
    rewrite ds_init_ok; auto. }
  split; auto.
  rewrite (built_rows _ _ _ _ _ B'), (built_rows _ _ _ _ _ B). unfold rows_of.
  rewrite <- mask_filter_fst by (rewrite combine_length; lia).
  rewrite combine_mask by (rewrite combine_length; lia). rewrite combine_mask by lia.
  rewrite mask_select_filter. auto.
Qed.

Lemma subset_eq nf X y ids d qs : built nf X y ids d ->
  subset qs d = ds_init nf (mask_select (map (memz qs) ids) X)
                           (mask_select (map (memz qs) ids) y) (filter (memz qs) ids).
Proof.
  intros B. unfold subset. rewrite (get_qids_built B).
  destruct (built_inv _ _ _ _ _ B) as (-> & -> & -> & _).
  unfold in1d. fold (memz qs). rewrite <- (mask_select_filter (memz qs) ids). reflexivity.
Qed.

Lemma C03_lemma nf X y ids d qs :
  built nf X y ids d ->
  exists d', subset qs d = Ok d' /\
    rows d' = filter (fun r => memz qs (fst r)) (rows d) /\
    (forall q, In q (ds_qids d') <-> In q qs /\ In q (ds_qids d)) /\
    (forall q, In q qs -> query_rows q d' = query_rows q d) /\
    ds_nf d' = ds_nf d /\
    exists X' y' ids', built nf X' y' ids' d'.
Proof.
  intros B. rewrite (subset_eq _ _ _ _ _ qs B).
  destruct (select_built _ _ _ _ _ (memz qs) B) as (d' & E & B' & R).
  exists d'. split; auto. split; auto.
  split.
  { intros q. pose proof B as (_ & _ & _ & H). pose proof B' as (_ & _ & _ & H').
    assert (forall ids0 X0 y0 d0, ds_init (V:=V) nf X0 y0 ids0 = Ok d0 -> (In q (ds_qids d0) <-> In q ids0)) as G.
    { intros ids0 X0 y0 d0 H0. destruct ids0 as [|q0 ids0].
      - apply ds_init_inv in H0. destruct H0 as [_ ->]. cbn. tauto.
      - destruct (C01_lemma _ _ _ (ids := q0 :: ids0) ltac:(congruence) H0) as (_ & _ & _ & _ & _ & HQ & _). auto. }
    rewrite (G _ _ _ _ H), (G _ _ _ _ H'). rewrite filter_In, memz_In. tauto. }
  split.
  { intros q Hq. unfold query_rows. rewrite R.
    clear - Hq. induction (rows d) as [|r rs IH]; cbn; auto.
    destruct (memz qs (fst r)) eqn:E1; cbn.
    - rewrite IH; auto.
    - destruct (Z.eqb_spec (fst r) q); auto. subst. apply memz_In in Hq. congruence. }
  split.
  { destruct (built_inv _ _ _ _ _ B) as (_ & _ & -> & _).
    destruct (built_inv _ _ _ _ _ B') as (_ & _ & -> & _). auto. }
  eauto.
Qed.

(** ** split *)

Lemma u32_neg q : - 2 ^ 31 <= q < 0 -> u32 q = q + 2 ^ 32.
Proof. intros H. unfold u32, wrap_u. symmetry. apply Z.mod_unique with (q := -1); lia. Qed.
Lemma u32_nonneg q : 0 <= q < 2 ^ 31 -> u32 q = q.
Proof. intros H. unfold u32, wrap_u. apply Z.mod_small; lia. Qed.

Lemma memz_u32 qs q : int32_ids qs -> - 2 ^ 31 <= q < 2 ^ 31 ->
  memz qs (u32 q) = ((0 <=? q) && memz qs q)%bool.
Proof.
  intros Hqs Hq. destruct (Z.leb_spec 0 q).
  - rewrite u32_nonneg by lia. auto.
  - cbn. destruct (memz qs (u32 q)) eqn:E; auto. apply memz_In in E.
    unfold int32_ids in Hqs. rewrite Forall_forall in Hqs. apply Hqs in E.
    rewrite u32_neg in E by lia. lia.
Qed.

Lemma in1d_u32 qs ids : int32_ids qs -> int32_ids ids ->
  in1d (map u32 ids) qs = map (fun q => ((0 <=? q) && memz qs q)%bool) ids.
Proof.
  intros Hqs Hids. unfold in1d. rewrite map_map. apply map_ext_in. intros q Hq.
  fold (memz qs (u32 q)). apply memz_u32; auto.
  unfold int32_ids in Hids. rewrite Forall_forall in Hids. auto.
Qed.

Lemma mask_u32 qs ids : int32_ids ids ->
  mask_select (map (fun q => ((0 <=? q) && memz qs q)%bool) ids) (map u32 ids)
  = filter (fun q => ((0 <=? q) && memz qs q)%bool) ids.
Proof.
  intros Hids. rewrite mask_select_map, mask_select_filter.
  rewrite <- (map_id (filter _ ids)) at 2. apply map_ext_in. intros q Hq.
  apply filter_In in Hq. destruct Hq as [Hq E]. apply andb_prop in E. destruct E as [E _].
  apply Z.leb_le in E. unfold int32_ids in Hids. rewrite Forall_forall in Hids.
  apply Hids in Hq. apply u32_nonneg. lia.
Qed.

Lemma ds_qids_In nf X y ids d q : ds_init (V:=V) nf X y ids = Ok d -> (In q (ds_qids d) <-> In q ids).
Proof.
  intros H0. destruct ids as [|q0 ids0].
  - apply ds_init_inv in H0. destruct H0 as [_ ->]. cbn. tauto.
  - destruct (C01_lemma _ _ _ (ids := q0 :: ids0) ltac:(congruence) H0) as (_ & _ & _ & _ & _ & HQ & _). auto.
Qed.

Lemma ds_qids_NoDup nf X y ids d : ds_init (V:=V) nf X y ids = Ok d -> NoDup (ds_qids d).
Proof.
  intros H0. destruct ids as [|q0 ids0].
  - apply ds_init_inv in H0. destruct H0 as [_ ->]. cbn. constructor.
  - destruct (C01_lemma _ _ _ (ids := q0 :: ids0) ltac:(congruence) H0) as (_ & _ & _ & _ & HN & HQ & _). auto.
Qed.

Lemma int32_sub (l l' : list Z) : (forall q, In q l -> In q l') -> int32_ids l' -> int32_ids l.
Proof. unfold int32_ids. rewrite !Forall_forall. auto. Qed.

Lemma slice_incl {A} (x : A) l a b : In x (slice a b l) -> In x l.
Proof. unfold slice. intros H. apply In_firstn, In_skipn in H. auto. Qed.

(** What [split] returns once the sizes are accepted. *)
Lemma split_spec nf X y ids d train vali perm tq vq eq :
  built nf X y ids d -> (forall q, In q perm -> In q (ds_qids d)) ->
  split_sizes train vali (n_queries d) = Ok (tq, vq, eq) ->
  exists tr vl te, split train vali perm d = Ok (tr, vl, te) /\
    (Qeq vali 0 <-> vl = None) /\
    (rows tr = filter (fun r => (0 <=? fst r) && memz (slice_to tq perm) (fst r))%bool (rows d)) /\
    (forall v, vl = Some v -> rows v =
       filter (fun r => (0 <=? fst r) && memz (slice tq (tq + vq) perm) (fst r))%bool (rows d)) /\
    (rows te = filter (fun r => (0 <=? fst r) && memz (slice_from (- eq) perm) (fst r))%bool (rows d)) /\
    (forall p, In p (split_parts (tr, vl, te)) -> exists X' y' ids', built nf X' y' ids' p).
Proof.
  intros B Hperm Hsz. unfold split. rewrite Hsz. cbn [bind].
  pose proof B as (Hy & Hg & Hr & H).
  assert (U : unroll u32 (blank d) d = map u32 ids).
  { eapply unroll_grouped; eauto. eapply blank_length; eauto. }
  rewrite U. unfold split_qids.
  destruct (built_inv _ _ _ _ _ B) as (-> & -> & -> & _).
  assert (Hp32 : int32_ids perm).
  { eapply int32_sub; [|exact Hr]. intros q Hq. apply Hperm in Hq.
    apply (ds_qids_In _ _ _ _ _ q H). auto. }
  assert (H32 : forall l, (forall q, In q l -> In q perm) -> int32_ids l).
  { intros l Hl. eapply int32_sub; [exact Hl|auto]. }
  rewrite !in1d_u32; auto;
    [|apply H32; unfold slice_from; intros; eapply In_skipn; eauto
     |apply H32; intros; eapply slice_incl; eauto
     |apply H32; unfold slice_to; intros; eapply In_firstn; eauto].
  rewrite !mask_u32 by auto.
  destruct (select_built _ _ _ _ _ (fun q => ((0 <=? q) && memz (slice_to tq perm) q)%bool) B) as (tr & E1 & B1 & R1).
  destruct (select_built _ _ _ _ _ (fun q => ((0 <=? q) && memz (slice tq (tq + vq) perm) q)%bool) B) as (vl & E2 & B2 & R2).
  destruct (select_built _ _ _ _ _ (fun q => ((0 <=? q) && memz (slice_from (- eq) perm) q)%bool) B) as (te & E3 & B3 & R3).
  rewrite E1, E3. cbn [bind].
  destruct (Qeq_bool vali 0) eqn:Ev; cbn [bind].
  - exists tr, None, te. split; auto. apply Qeq_bool_iff in Ev.
    split; [tauto|]. split; auto. split; [discriminate|]. split; auto.
    cbn. intros p [<-|[<-|[]]]; eauto.
  - rewrite E2; cbn [bind]. exists tr, (Some vl), te. split; auto.
    split; [split; [intros Q; apply Qeq_bool_iff in Q; congruence|discriminate]|].
    split; auto. split; [intros v Hv; inversion Hv; subst; auto|]. split; auto.
    cbn. intros p [<-|[<-|[<-|[]]]]; eauto.
Qed.

Lemma filter_or_perm {A} (p q : A -> bool) l :
  (forall x, In x l -> p x = true -> q x = true -> False) ->
  Permutation (filter p l ++ filter q l) (filter (fun x => p x || q x)%bool l).
Proof.
  induction l as [|x xs IH]; cbn; intros H; auto.
  assert (IH' := IH (fun y Hy => H y (or_intror Hy))).
  specialize (H x (or_introl eq_refl)).
  destruct (p x) eqn:Ep, (q x) eqn:Eq; cbn; auto.
  - exfalso; auto.
  - rewrite <- Permutation_middle. auto.
Qed.

Lemma filter_true {A} (p : A -> bool) l : (forall x, In x l -> p x = true) -> filter p l = l.
Proof.
  induction l as [|x xs IH]; cbn; intros H; auto. rewrite (H x (or_introl eq_refl)).
  f_equal. apply IH. intros; apply H; right; auto.
Qed.

Lemma filter_false {A} (p : A -> bool) l : (forall x, In x l -> p x = false) -> filter p l = [].
Proof.
  induction l as [|x xs IH]; cbn; intros H; auto. rewrite (H x (or_introl eq_refl)).
  apply IH. intros; apply H; right; auto.
Qed.

Lemma memz_app a b q : memz (a ++ b) q = (memz a q || memz b q)%bool.
Proof. apply existsb_app. Qed.

Lemma Qfloor_bounds q : (inject_Z (Qfloor q) <= q)%Q /\ (q < inject_Z (Qfloor q) + 1)%Q.
Proof.
  split; [apply Qfloor_le|]. pose proof (Qlt_floor q). rewrite inject_Z_plus in H. exact H.
Qed.

Lemma py_round_nearest q : nearest_even q (py_round q).
Proof.
  destruct (Qfloor_bounds q) as [H1 H2]. unfold nearest_even, py_round.
  destruct (Qcompare (q - inject_Z (Qfloor q)) (1 # 2)) eqn:E.
  - apply Qeq_alt in E. destruct (Z.even (Qfloor q)) eqn:Ev.
    + right. split; auto.
    + right. rewrite inject_Z_plus. split.
      * right. change (inject_Z 1) with 1%Q. lra.
      * rewrite Z.even_add. rewrite Ev. auto.
  - apply Qlt_alt in E. left. lra.
  - apply Qgt_alt in E. left. rewrite inject_Z_plus. change (inject_Z 1) with 1%Q. lra.
Qed.

Lemma nearest_even_unique q a b : nearest_even q a -> nearest_even q b -> a = b.
Proof.
  assert (forall a b, nearest_even q a -> nearest_even q b -> a < b -> False) as G.
  { clear. intros a b Ha Hb L.
    assert (inject_Z a + 1 <= inject_Z b)%Q as L'.
    { change 1%Q with (inject_Z 1). rewrite <- inject_Z_plus. rewrite <- Zle_Qle. lia. }
    unfold nearest_even in *.
    destruct Ha as [Ha|[[Ha|Ha] Ea]]; destruct Hb as [Hb|[[Hb|Hb] Eb]]; try lra.
    assert (inject_Z b == inject_Z a + 1)%Q as E by lra.
    change 1%Q with (inject_Z 1) in E. rewrite <- inject_Z_plus in E.
    apply (proj1 (inject_Z_injective _ _)) in E. subst b. rewrite Z.even_add in Eb. rewrite Ea in Eb. discriminate. }
  intros Ha Hb. destruct (Z.lt_trichotomy a b) as [L|[E|L]]; auto; exfalso; eauto.
Qed.

Lemma nearest_even_nonneg q z : (0 <= q)%Q -> nearest_even q z -> 0 <= z.
Proof.
  intros Hq Hz. destruct (Z.le_gt_cases 0 z); auto. exfalso.
  assert (inject_Z z <= inject_Z (-1))%Q as L by (rewrite <- Zle_Qle; lia).
  change (inject_Z (-1)) with (-(1))%Q in L.
  unfold nearest_even in Hz. destruct Hz as [Hz|[[Hz|Hz] _]]; lra.
Qed.

Lemma split_sizes_ok train vali n tq vq :
  (0 <= train)%Q -> (0 <= vali)%Q -> (train + vali <= 1)%Q ->
  nearest_even (train * inject_Z (Z.of_nat n)) tq ->
  nearest_even (vali * inject_Z (Z.of_nat n)) vq ->
  split_sizes train vali n = Ok (tq, vq, Z.of_nat n - tq - vq) /\ 0 <= tq /\ 0 <= vq.
Proof.
  intros H1 H2 H3 Ht Hv. unfold split_sizes.
  assert ((train <= 1)%Q) as H4 by lra.
  apply Qle_bool_iff in H3, H4. pose proof H1 as H1'. apply Qle_bool_iff in H1'.
  rewrite H1', H3, H4. cbn [negb orb].
  assert ((0 <= inject_Z (Z.of_nat n))%Q) as Hn.
  { change 0%Q with (inject_Z 0). rewrite <- Zle_Qle. lia. }
  rewrite (nearest_even_unique _ _ _ (py_round_nearest _) Ht).
  rewrite (nearest_even_unique _ _ _ (py_round_nearest _) Hv).
  split; auto.
  split; [eapply nearest_even_nonneg with (2 := Ht)|eapply nearest_even_nonneg with (2 := Hv)];
    apply Qmult_le_0_compat; auto.
Qed.

(** The three slices are the three consecutive pieces of the permutation. *)
Lemma split_slices (perm : list Z) tq vq :
  0 <= tq -> 0 <= vq -> tq + vq < Z.of_nat (length perm) ->
  slice_to tq perm ++ slice tq (tq + vq) perm
    ++ slice_from (- (Z.of_nat (length perm) - tq - vq)) perm = perm.
Proof.
  intros H1 H2 H3. rewrite slice_to_nonneg by auto. rewrite slice_nonneg by lia.
  unfold slice_from, slice_bound.
  destruct (Z.ltb_spec (- (Z.of_nat (length perm) - tq - vq)) 0); [|lia].
  rewrite Nat.min_r by lia.
  replace (Z.to_nat (- (Z.of_nat (length perm) - tq - vq) + Z.of_nat (length perm)))
    with (Z.to_nat tq + Z.to_nat vq)%nat by lia.
  replace (Z.to_nat (tq + vq) - Z.to_nat tq)%nat with (Z.to_nat vq) by lia.
  set (a := Z.to_nat tq). set (b := Z.to_nat vq).
  rewrite <- (firstn_skipn a perm) at 4. f_equal.
  rewrite <- (firstn_skipn b (skipn a perm)) at 2. f_equal.
  rewrite skipn_skipn'. reflexivity.
Qed.

Lemma rows_fst_In nf X y ids d r : built nf X y ids d -> In r (rows d) -> In (fst r) ids.
Proof.
  intros B Hr. rewrite (built_rows _ _ _ _ _ B) in Hr. unfold rows_of in Hr.
  destruct r as [q z]. apply in_combine_l in Hr. auto.
Qed.

Lemma py_round_zero q : (q == 0)%Q -> py_round q = 0.
Proof.
  intros H. eapply nearest_even_unique; [apply py_round_nearest|].
  left. change (inject_Z 0) with 0%Q. lra.
Qed.

(** Queries present in a part, from its rows. *)
Lemma part_qids nf X y ids d p q : built nf X y ids d -> (exists nf X' y' ids', built (V:=V) nf X' y' ids' p) ->
  In q (ds_qids p) <-> exists r, In r (rows p) /\ fst r = q.
Proof.
  intros _ (nf' & X' & y' & ids' & B'). pose proof B' as (Hy & _ & _ & H).
  rewrite (ds_qids_In _ _ _ _ _ q H). rewrite (built_rows _ _ _ _ _ B').
  destruct (built_inv _ _ _ _ _ B') as (_ & _ & _ & HX). unfold rows_of. split.
  - intros Hq. apply In_nth_error in Hq. destruct Hq as [i Hi].
    assert (i < length ids')%nat by (apply nth_error_Some; congruence).
    destruct (nth_error (combine X' y') i) eqn:E.
    + exists (q, p0). split; auto. apply nth_error_In with (n := i). rewrite nth_error_combine, Hi, E. auto.
    + apply nth_error_None in E. rewrite combine_length in E. lia.
  - intros (r & Hr & <-). destruct r as [q0 z]. apply in_combine_l in Hr. auto.
Qed.

Definition whole_part (d p : dataset V) : Prop :=
  forall q, In q (ds_qids p) -> query_rows q p = query_rows q d.

Lemma filter_whole (P : Z -> bool) (l : list (Z * (list V * V))) q :
  P q = true -> filter (fun r => fst r =? q) (filter (fun r => P (fst r)) l) = filter (fun r => fst r =? q) l.
Proof.
  intros HP. induction l as [|r rs IH]; cbn; auto.
  destruct (P (fst r)) eqn:E1; cbn.
  - rewrite IH. auto.
  - destruct (Z.eqb_spec (fst r) q); auto. congruence.
Qed.

Lemma C04_lemma nf X y ids d train vali perm tq vq :
  built nf X y ids d -> Permutation perm (ds_qids d) ->
  (0 <= train)%Q -> (0 <= vali)%Q -> (train + vali <= 1)%Q ->
  nearest_even (train * inject_Z (Z.of_nat (n_queries d))) tq ->
  nearest_even (vali * inject_Z (Z.of_nat (n_queries d))) vq ->
  tq + vq < Z.of_nat (n_queries d) ->
  exists r, split train vali perm d = Ok r /\
    let '(tr, vl, te) := r in
    (vl = None <-> Qeq vali 0) /\
    Permutation (concat (map rows (split_parts r))) (filter (fun r => 0 <=? fst r) (rows d)) /\
    (forall p, In p (split_parts r) -> whole_part d p) /\
    (Forall (fun q => 0 <= q) ids ->
       Z.of_nat (n_queries tr) = tq /\
       (forall v, vl = Some v -> Z.of_nat (n_queries v) = vq) /\
       Z.of_nat (n_queries te) = Z.of_nat (n_queries d) - tq - vq).
Proof.
  intros B HP H1 H2 H3 Ht Hv Hlt.
  destruct (split_sizes_ok train vali (n_queries d) tq vq) as (Hsz & Ht0 & Hv0); auto.
  assert (HpIn : forall q, In q perm -> In q (ds_qids d)) by (intros q Hq; eapply Permutation_in; eauto).
  destruct (split_spec nf X y ids d train vali perm tq vq _ B HpIn Hsz) as (tr & vl & te & E & Evl & Rt & Rv & Re & Bp).
  exists (tr, vl, te). split; auto.
  assert (Hlen : length perm = n_queries d) by (apply Permutation_length; auto).
  rewrite <- Hlen in *.
  pose proof (split_slices perm tq vq Ht0 Hv0 Hlt) as HS.
  set (tl := slice_to tq perm) in *. set (vll := slice tq (tq + vq) perm) in *.
  set (el := slice_from _ perm) in *.
  pose proof B as (Hy & Hg & Hr & H).
  assert (HN : NoDup (tl ++ vll ++ el)).
  { rewrite HS. eapply Permutation_NoDup; [symmetry; exact HP|]. eapply ds_qids_NoDup; eauto. }
  destruct (NoDup_app_inv _ _ HN) as (N1 & N23 & D1). destruct (NoDup_app_inv _ _ N23) as (N2 & N3 & D2).
  assert (Hv_empty : vl = None -> vll = []).
  { intros Hn. apply Evl in Hn. unfold vll.
    assert (vq = 0) as ->.
    { eapply nearest_even_unique; [exact Hv|]. left. change (inject_Z 0) with 0%Q. rewrite Hn. lra. }
    unfold slice. rewrite Z.add_0_r, Nat.sub_diag. auto. }
  assert (Rvs : concat (map rows (match vl with Some v => [v] | None => [] end)) =
     filter (fun r => (0 <=? fst r) && memz vll (fst r))%bool (rows d)).
  { destruct vl as [v|].
    - cbn. rewrite app_nil_r. apply Rv; auto.
    - rewrite (Hv_empty eq_refl). cbn [map concat]. symmetry. apply filter_false.
      intros r _. cbn. apply andb_false_r. }
  split; [symmetry; exact Evl|].
  split.
  { unfold split_parts. cbn [map concat]. rewrite map_app, concat_app, Rvs. cbn [map concat].
    rewrite app_nil_r, Rt, Re. rewrite filter_or_perm.
    2:{ intros r _ Ha Hb. apply andb_prop in Ha, Hb. destruct Ha as [_ Ha], Hb as [_ Hb].
        apply memz_In in Ha, Hb. apply (D2 (fst r)); auto. }
    rewrite filter_or_perm.
    2:{ intros r _ Ha Hb. apply andb_prop in Ha. destruct Ha as [_ Ha].
        apply memz_In in Ha. apply (D1 (fst r)); auto. apply in_app_iff.
        apply orb_prop in Hb. destruct Hb as [Hb|Hb]; apply andb_prop in Hb; destruct Hb as [_ Hb];
        apply memz_In in Hb; auto. }
    erewrite filter_ext_in; [reflexivity|]. intros r Hrr. cbn beta.
    assert (memz (tl ++ vll ++ el) (fst r) = true) as M.
    { rewrite HS. apply memz_In. eapply Permutation_in; [symmetry; exact HP|].
      apply (ds_qids_In _ _ _ _ _ _ H). eapply rows_fst_In; eauto. }
    rewrite !memz_app in M. destruct (0 <=? fst r); cbn; auto. }
  assert (Hexp : forall p (P : Z -> bool), In p (split_parts (tr, vl, te)) ->
     rows p = filter (fun r => P (fst r)) (rows d) ->
     forall q, In q (ds_qids p) <-> (P q = true /\ In q ids)).
  { intros p P Hp HR q.
    destruct (Bp p Hp) as (X' & y' & ids' & B').
    rewrite (part_qids _ _ _ _ _ p q B); [|exists nf; eauto]. rewrite HR. split.
    - intros (r & Hr' & <-). apply filter_In in Hr'. destruct Hr' as [Hr' Hr''].
      split; auto. eapply rows_fst_In; eauto.
    - intros [Hq Hin].
      assert (In q (ds_qids d)) as Hin' by (apply (ds_qids_In _ _ _ _ _ _ H); auto).
      rewrite (part_qids _ _ _ _ _ d q B) in Hin' by (exists nf; eauto).
      destruct Hin' as (r & Hr' & E'). exists r. split; auto. apply filter_In. split; auto.
      rewrite E'. auto. }
  assert (It : In tr (split_parts (tr, vl, te))) by (left; auto).
  assert (Ie : In te (split_parts (tr, vl, te))) by (cbn; right; apply in_app_iff; right; left; auto).
  assert (Iv : forall v, vl = Some v -> In v (split_parts (tr, vl, te))).
  { intros v ->. cbn. auto. }
  pose proof (Hexp tr (fun q => ((0 <=? q) && memz tl q)%bool) It Rt) as Qt. pose proof (Hexp te (fun q => ((0 <=? q) && memz el q)%bool) Ie Re) as Qe.
  split.
  { intros p Hp q Hq. unfold query_rows.
    cbn in Hp. destruct Hp as [<-|Hp].
    - rewrite Rt. apply Qt in Hq. apply (filter_whole (fun q => ((0 <=? q) && memz tl q)%bool)). tauto.
    - apply in_app_iff in Hp. destruct Hp as [Hp|[<-|[]]].
      + destruct vl as [v|]; [|destruct Hp]. destruct Hp as [<-|[]].
        rewrite (Rv v eq_refl). pose proof (Hexp v (fun q => ((0 <=? q) && memz vll q)%bool) (Iv v eq_refl) (Rv v eq_refl)) as Qv.
        apply Qv in Hq. apply (filter_whole (fun q => ((0 <=? q) && memz vll q)%bool)). tauto.
      + rewrite Re. apply Qe in Hq. apply (filter_whole (fun q => ((0 <=? q) && memz el q)%bool)). tauto. }
  intros Hpos. rewrite Forall_forall in Hpos.
  assert (Hcount : forall p l, In p (split_parts (tr, vl, te)) -> NoDup l -> (forall q, In q l -> In q perm) ->
    (forall q, In q (ds_qids p) <-> (((0 <=? q) && memz l q)%bool = true /\ In q ids)) -> n_queries p = length l).
  { intros p l Hp Hl Hlp Hq. unfold n_queries. apply Permutation_length.
    destruct (Bp p Hp) as (X' & y' & ids' & (_ & _ & _ & Hi')).
    apply NoDup_Permutation; auto.
    - eapply ds_qids_NoDup; eauto.
    - intros q. rewrite Hq. split.
      + intros [Ha _]. apply andb_prop in Ha. apply memz_In; tauto.
      + intros Ha. assert (In q ids).
        { apply (ds_qids_In _ _ _ _ _ _ H). eapply Permutation_in; [exact HP|]. auto. }
        split; auto. apply andb_true_intro. split; [apply Z.leb_le; auto|apply memz_In; auto]. }
  assert (Ltl : length tl = Z.to_nat tq).
  { unfold tl. rewrite slice_to_nonneg by auto. rewrite firstn_length. lia. }
  assert (Lv : length vll = Z.to_nat vq).
  { unfold vll. rewrite slice_nonneg by lia. rewrite firstn_length, skipn_length. lia. }
  assert (Lsum : (length tl + (length vll + length el) = length perm)%nat).
  { rewrite <- !app_length. rewrite HS. auto. }
  split; [|split].
  - rewrite (Hcount tr tl It N1); auto; [lia|].
    intros q Hq. rewrite <- HS. apply in_app_iff; auto.
  - intros v Ev. rewrite (Hcount v vll (Iv v Ev) N2); [lia| |apply (Hexp v (fun q => ((0 <=? q) && memz vll q)%bool) (Iv v Ev) (Rv v Ev))].
    intros q Hq. rewrite <- HS. rewrite !in_app_iff; auto.
  - rewrite (Hcount te el Ie N3); auto; [lia|].
    intros q Hq. rewrite <- HS. rewrite !in_app_iff; auto.
Qed.

(** When the requested train and validation sizes use up all queries, the test
    part is the whole data set. *)
Lemma C04_leak_lemma nf X y ids d train vali perm tq vq :
  built nf X y ids d -> Permutation perm (ds_qids d) -> Forall (fun q => 0 <= q) ids ->
  (0 <= train)%Q -> (0 <= vali)%Q -> (train + vali <= 1)%Q ->
  nearest_even (train * inject_Z (Z.of_nat (n_queries d))) tq ->
  nearest_even (vali * inject_Z (Z.of_nat (n_queries d))) vq ->
  tq + vq = Z.of_nat (n_queries d) ->
  exists tr vl te, split train vali perm d = Ok (tr, vl, te) /\ rows te = rows d.
Proof.
  intros B HP Hpos H1 H2 H3 Ht Hv Heq.
  destruct (split_sizes_ok train vali (n_queries d) tq vq) as (Hsz & Ht0 & Hv0); auto.
  assert (HpIn : forall q, In q perm -> In q (ds_qids d)) by (intros q Hq; eapply Permutation_in; eauto).
  destruct (split_spec nf X y ids d train vali perm tq vq _ B HpIn Hsz) as (tr & vl & te & E & Evl & Rt & Rv & Re & Bp).
  exists tr, vl, te. split; auto. rewrite Re. replace (- (Z.of_nat (n_queries d) - tq - vq)) with 0 by lia.
  unfold slice_from, slice_bound. cbn [Z.ltb Z.compare Z.to_nat]. rewrite Nat.min_0_r. cbn [skipn].
  apply filter_true. intros r Hr. pose proof (rows_fst_In _ _ _ _ _ r B Hr) as Hin.
  pose proof B as (_ & _ & _ & H).
  apply andb_true_intro. split.
  - rewrite Forall_forall in Hpos. apply Z.leb_le; auto.
  - apply memz_In. eapply Permutation_in; [symmetry; exact HP|]. apply (ds_qids_In _ _ _ _ _ _ H). auto.
Qed.

End DS.
