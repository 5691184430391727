(** Structural statistics (C36), pruning (C35), the feature check (C37). *)
From Coq Require Import List ZArith Lia Bool Permutation.
From Verif Require Import Base Lists Num M_Dataset M_NDCG M_Ensemble S_Ensemble L_Ensemble.
Import ListNotations.
Local Open Scope Z_scope.

Section Layout.
Context {N : num}.
Implicit Types e : ensemble N.

Lemma total_size_cons (t : tree Z N) ts : total_size (t :: ts) = (size t + total_size ts)%nat.
Proof. reflexivity. Qed.

(** Position of each tree. *)
Lemma consecutive_nth ts : forall a i (t : tree Z N), consecutive a ts -> nth_error ts i = Some t ->
  mark t = a + Z.of_nat (total_size (firstn i ts)) /\
  Permutation (marks t) (zrange (mark t) (mark t + Z.of_nat (size t))) /\
  (total_size (firstn i ts) + size t <= total_size ts)%nat.
Proof.
  induction ts as [|t0 ts IH]; intros a [|i] t Hc Hi; try discriminate.
  - cbn in Hi. injection Hi as ->. cbn [consecutive] in Hc. destruct Hc as (H1 & H2 & _).
    cbn [firstn]. rewrite total_size_cons. change (total_size []) with 0%nat. subst a.
    split; [lia|]. split; [exact H2|lia].
  - cbn in Hi. cbn [consecutive] in Hc. destruct Hc as (H1 & H2 & H3).
    destruct (IH _ _ _ H3 Hi) as (E1 & E2 & E3). cbn [firstn]. rewrite !total_size_cons.
    split; [lia|]. split; [exact E2|lia].
Qed.
Lemma firstn_succ {A} (l : list A) i x : nth_error l i = Some x -> firstn (S i) l = firstn i l ++ [x].
Proof.
  revert i. induction l as [|y l IH]; intros [|i] H; try discriminate; cbn in *.
  - congruence.
  - f_equal. apply IH. exact H.
Qed.
Lemma total_size_app (a b : list (tree Z N)) : total_size (a ++ b) = (total_size a + total_size b)%nat.
Proof. unfold total_size. rewrite map_app, list_sum_app. reflexivity. Qed.
Lemma total_firstn (ts : list (tree Z N)) i : (total_size (firstn i ts) <= total_size ts)%nat.
Proof. rewrite <- (firstn_skipn i ts) at 2. rewrite total_size_app. lia. Qed.

Lemma bounds_ok e ts ws i t : laid_out e ts ws -> nth_error ts i = Some t ->
  tree_bounds e (Z.of_nat i) = Ok (mark t, mark t + Z.of_nat (size t)) /\
  0 <= mark t /\ mark t + Z.of_nat (size t) <= Z.of_nat (length (e_left e)).
Proof.
  intros (He & Hc & Hn & Hl & _) Hi. destruct (consecutive_nth _ _ _ _ Hc Hi) as (E1 & E2 & E3).
  destruct (encodes_root e ts ws i t He Hi) as [_ Hroot].
  split; [|lia]. unfold tree_bounds. rewrite (py_get_zget _ _ _ Hroot). cbn [bind].
  pose proof He as (En & Hr & _).
  assert (Hil : (i < length ts)%nat) by (apply nth_error_Some; congruence).
  assert (E4 : total_size (firstn (S i) ts) = (total_size (firstn i ts) + size t)%nat).
  { rewrite (firstn_succ _ _ _ Hi), total_size_app, total_size_cons. change (total_size []) with 0%nat. lia. }
  destruct (Z.of_nat i + 1 =? e_ntrees e) eqn:E.
  - apply Z.eqb_eq in E. cbn [bind]. do 2 f_equal.
    rewrite firstn_all2 in E4 by lia. lia.
  - apply Z.eqb_neq in E. destruct (nth_error ts (S i)) as [t'|] eqn:Ht'.
    + destruct (encodes_root e ts ws (S i) t' He Ht') as [_ Hroot'].
      replace (Z.of_nat i + 1) with (Z.of_nat (S i)) by lia. rewrite (py_get_zget _ _ _ Hroot'). cbn [bind].
      do 2 f_equal. destruct (consecutive_nth _ _ _ _ Hc Ht') as (F1 & _). lia.
    + apply nth_error_None in Ht'. lia.
Qed.

(** A slice is the list of its cells. *)
Lemma slice_cells {A} (l : list A) a b d : 0 <= a <= b -> b <= Z.of_nat (length l) ->
  slice a b l = map (fun i => nth (Z.to_nat i) l d) (zrange a b).
Proof.
  intros Ha Hb. rewrite slice_nonneg by lia. unfold zrange. rewrite map_map.
  apply (nth_error_ext').
  intros i. rewrite nth_error_map', nth_error_firstn, nth_error_skipn, nth_error_seq.
  replace (Z.to_nat b - Z.to_nat a)%nat with (Z.to_nat (b - a)) by lia.
  destruct (Nat.ltb i (Z.to_nat (b - a))) eqn:E; [apply Nat.ltb_lt in E|apply Nat.ltb_ge in E]; cbn [option_map].
  - replace (Z.to_nat (a + Z.of_nat (0 + i))) with (Z.to_nat a + i)%nat by lia. apply nth_error_nth'. lia.
  - reflexivity.
Qed.

Lemma rep_leaf_count e t d : represents e t ->
  length (filter (fun i => nth (Z.to_nat i) (e_left e) d =? -1) (marks t)) = leaves t.
Proof.
  assert (Hnth : forall i x, zget (e_left e) i = Some x -> nth (Z.to_nat i) (e_left e) d = x).
  { intros i x H. pose proof (zget_range _ _ _ H). rewrite (zget_some_nth _ _ d H0) in H. congruence. }
  induction t as [i v|i f thr l IHl r IHr]; intros H; cbn [represents] in H; cbn [marks filter leaves].
  - destruct H as (H & _). rewrite (Hnth _ _ H). reflexivity.
  - destruct H as (H & _ & _ & _ & Hl & Hr). rewrite (Hnth _ _ H).
    pose proof (rep_range e l Hl). replace (mark l =? -1) with false by (symmetry; apply Z.eqb_neq; lia).
    rewrite filter_app, app_length, IHl, IHr by assumption. reflexivity.
Qed.

Lemma filter_map_length {A B} (f : A -> B) p l :
  length (filter p (map f l)) = length (filter (fun x => p (f x)) l).
Proof. induction l as [|x l IH]; [reflexivity|]. cbn [map filter]. destruct (p (f x)); cbn [length]; auto. Qed.

Lemma height_node_ok e t : represents e t -> forall fuel depth, (height t < fuel)%nat ->
  height_node fuel e (mark t) depth = Ok (depth + Z.of_nat (height t)).
Proof.
  induction t as [i v|i f thr l IHl r IHr]; intros H fuel depth Hf; (destruct fuel as [|fuel]; [lia|]).
  - cbn [represents] in H. destruct H as (H & _). cbn [height_node mark]. rewrite (py_get_zget _ _ _ H).
    cbn [bind height]. rewrite Z.eqb_refl. f_equal. lia.
  - cbn [represents] in H. destruct H as (H1 & H2 & _ & _ & Hl & Hr). cbn [height] in Hf.
    cbn [height_node mark]. rewrite (py_get_zget _ _ _ H1). cbn [bind].
    pose proof (rep_range e l Hl). replace (mark l =? -1) with false by (symmetry; apply Z.eqb_neq; lia).
    rewrite (py_get_zget _ _ _ H2). cbn [bind]. rewrite IHl by (auto; lia). cbn [bind].
    rewrite IHr by (auto; lia). cbn [bind height]. f_equal. lia.
Qed.

Theorem C36_lemma e ts ws : laid_out e ts ws ->
  num_leaves e = Ok (map (fun t => Z.of_nat (leaves t)) ts) /\
  num_nodes e = Ok (map (fun t => Z.of_nat (size t)) ts) /\
  height_trees e = Ok (map (fun t => Z.of_nat (height t)) ts) /\
  Forall (fun t => size t = (2 * leaves t - 1)%nat) ts /\
  (ts = [] -> max_leaves e = Err ValueError) /\
  (ts <> [] -> exists m, max_leaves e = Ok m /\ In m (map (fun t => Z.of_nat (leaves t)) ts) /\
                         Forall (fun t => Z.of_nat (leaves t) <= m) ts).
Proof.
  intros H. pose proof H as (He & Hc & Hn & Hl & _). pose proof He as (En & _).
  assert (Hpos : (e_ntrees e <? 0) = false) by (apply Z.ltb_ge; lia).
  assert (EL : num_leaves e = Ok (map (fun t => Z.of_nat (leaves t)) ts)).
  { unfold num_leaves. rewrite Hpos, En. apply mapM_zrange. intros i t Hi.
    destruct (bounds_ok e ts ws i t H Hi) as (E & Ha & Hb). rewrite E. cbn [bind fst snd].
    destruct (encodes_root e ts ws i t He Hi) as [Ht _].
    destruct (consecutive_nth _ _ _ _ Hc Hi) as (_ & Hp & _).
    rewrite (slice_cells _ _ _ 0) by lia. rewrite filter_map_length.
    rewrite <- (rep_leaf_count e t 0 Ht). do 2 f_equal. apply Permutation_length.
    apply Permutation_filter. apply Permutation_sym. exact Hp. }
  split; [exact EL|]. split; [|split; [|split; [|split]]].
  - unfold num_nodes. rewrite Hpos, En. apply mapM_zrange. intros i t Hi.
    destruct (bounds_ok e ts ws i t H Hi) as (E & _). rewrite E. cbn [bind fst snd]. f_equal. lia.
  - unfold height_trees. rewrite Hpos, En. apply mapM_zrange. intros i t Hi.
    destruct (encodes_root e ts ws i t He Hi) as [Ht Hroot].
    rewrite (py_get_zget _ _ _ Hroot). cbn [bind]. rewrite height_node_ok; [reflexivity|exact Ht|].
    pose proof (height_bound e t Ht). lia.
  - apply Forall_forall. intros t _. apply size_leaves.
  - intros ->. unfold max_leaves. rewrite EL. reflexivity.
  - intros Hne. unfold max_leaves. rewrite EL. cbn [bind]. destruct ts as [|t ts']; [congruence|]. cbn [map].
    eexists. split; [reflexivity|].
    assert (Hm : forall l m, (In (fold_left Z.max l m) (m :: l)) /\ m <= fold_left Z.max l m /\
                   Forall (fun x => x <= fold_left Z.max l m) l).
    { clear. induction l as [|x l IH]; intros m; cbn [fold_left].
      - split; [left; reflexivity|]. split; [lia|constructor].
      - destruct (IH (Z.max m x)) as (H1 & H2 & H3). split; [|split; [lia|constructor; [lia|exact H3]]].
        destruct H1 as [H1|H1]; [|right; right; exact H1]. rewrite <- H1.
        destruct (Z.max_spec m x) as [[_ ->]|[_ ->]]; [right; left|left]; reflexivity. }
    destruct (Hm (map (fun t => Z.of_nat (leaves t)) ts') (Z.of_nat (leaves t))) as (H1 & H2 & H3).
    split; [exact H1|]. constructor; [exact H2|]. rewrite Forall_forall in *. intros t' Ht'. apply H3.
    apply in_map_iff. exists t'. auto.
Qed.

(** ** Pruning *)
Lemma zget_firstn {A} (l : list A) k i x : zget l i = Some x -> i < Z.of_nat k -> zget (firstn k l) i = Some x.
Proof.
  unfold zget. destruct (i <? 0) eqn:E; [discriminate|]. apply Z.ltb_ge in E. intros H Hk.
  rewrite nth_error_firstn. replace (Nat.ltb (Z.to_nat i) k) with true; [exact H|].
  symmetry. apply Nat.ltb_lt. lia.
Qed.
Definition cut (e : ensemble N) (n : nat) (s : nat) : ensemble N :=
  mkEns (Z.of_nat n) (Z.of_nat s) (firstn n (e_root e)) (firstn n (e_weight e)) (firstn s (e_left e))
        (firstn s (e_right e)) (firstn s (e_value e)) (firstn s (e_feature e)).
Lemma cut_represents e n s t : represents e t -> (forall i, In i (marks t) -> i < Z.of_nat s) ->
  represents (cut e n s) t.
Proof.
  induction t as [i v|i f thr l IHl r IHr]; cbn [represents marks cut e_left e_right e_feature e_value]; intros H Hs.
  - destruct H as (H1 & H2 & H3 & H4). assert (i < Z.of_nat s) by (apply Hs; left; reflexivity).
    repeat split; apply zget_firstn; auto.
  - destruct H as (H1 & H2 & H3 & H4 & Hl & Hr). assert (i < Z.of_nat s) by (apply Hs; left; reflexivity).
    repeat (split; [apply zget_firstn; auto|]). split.
    + apply IHl; auto. intros j Hj. apply Hs. right. apply in_or_app. auto.
    + apply IHr; auto. intros j Hj. apply Hs. right. apply in_or_app. auto.
Qed.
Lemma consecutive_firstn ts : forall a n, consecutive (N:=N) a ts -> consecutive a (firstn n ts).
Proof.
  induction ts as [|t ts IH]; intros a [|n] H; cbn [firstn consecutive]; auto.
  cbn [consecutive] in H. destruct H as (H1 & H2 & H3). auto.
Qed.

Theorem C35_arrays_lemma e ts ws n : laid_out e ts ws -> (n < length ts)%nat ->
  exists e', prune_arrays e (Z.of_nat n) = Ok e' /\ laid_out e' (firstn n ts) (firstn n ws).
Proof.
  intros (He & Hc & Hn & L1 & L2 & L3 & L4) Hlt.
  destruct (nth_error ts n) as [t|] eqn:Ht; [|apply nth_error_None in Ht; lia].
  destruct (encodes_root e ts ws n t He Ht) as [_ Hroot].
  destruct (consecutive_nth _ _ _ _ Hc Ht) as (E1 & _ & E3). rewrite Z.add_0_l in E1.
  exists (cut e n (total_size (firstn n ts))).
  assert (Hle : (total_size (firstn n ts) <= total_size ts)%nat) by apply total_firstn.
  pose proof He as (En & Er & Ew & Elen & Hrep).
  assert (Hsl : forall {A} (l : list A) k, slice_to (Z.of_nat k) l = firstn k l).
  { intros A l k. rewrite slice_to_nonneg by lia. rewrite Nat2Z.id. reflexivity. }
  split.
  { unfold prune_arrays. rewrite (py_get_zget _ _ _ Hroot). cbn [bind]. rewrite E1, !Hsl. reflexivity. }
  repeat split; cbn [cut e_ntrees e_nnodes e_root e_weight e_left e_right e_value e_feature];
    try (rewrite firstn_length; lia).
  - rewrite Er. rewrite firstn_map. reflexivity.
  - rewrite Ew. reflexivity.
  - rewrite !firstn_length. lia.
  - apply Forall_forall. intros t' Hin. apply cut_represents.
    + rewrite Forall_forall in Hrep. apply Hrep. eapply In_firstn; eauto.
    + intros i Hi. apply In_nth_error in Hin as [k Hk].
      assert (Hk' : nth_error ts k = Some t' /\ (k < n)%nat).
      { rewrite nth_error_firstn in Hk. destruct (Nat.ltb k n) eqn:E; [|discriminate]. apply Nat.ltb_lt in E. auto. }
      destruct Hk' as [Hk1 Hk2]. destruct (consecutive_nth _ _ _ _ Hc Hk1) as (F1 & F2 & _).
      eapply Permutation_in in Hi; [|exact F2]. apply in_zrange in Hi.
      assert (G : (total_size (firstn (S k) ts) <= total_size (firstn n ts))%nat).
      { rewrite <- (@firstn_firstn_le _ ts (S k) n) by lia. apply total_firstn. }
      rewrite (firstn_succ _ _ _ Hk1), total_size_app, total_size_cons in G.
      change (total_size []) with 0%nat in G. lia.
  - apply consecutive_firstn. exact Hc.
Qed.

Theorem C35_lemma (m : model N) ts ws n : laid_out (m_ens m) ts ws -> 0 <= n ->
  exists m', copy m (Some n) = Ok m' /\ limit_trees m (Some n) = Ok m' /\
    laid_out (m_ens m') (firstn (Z.to_nat n) ts) (firstn (Z.to_nat n) ws) /\
    m_lr m' = m_lr m /\ m_base m' = m_base m /\
    (n < Z.of_nat (length ts) -> m_cache m' = []) /\ (Z.of_nat (length ts) <= n -> m' = m).
Proof.
  intros H Hn. pose proof H as ((En & _ & _ & Elen & _) & _). unfold copy, limit_trees, prune_model. rewrite En.
  destruct (Z.leb_spec (Z.of_nat (length ts)) n) as [Hle|Hlt].
  - exists m. replace (n <? Z.of_nat (length ts)) with false by (symmetry; apply Z.ltb_ge; lia).
    rewrite !firstn_all2 by lia. repeat (split; auto). lia.
  - destruct (C35_arrays_lemma (m_ens m) ts ws (Z.to_nat n) H) as (e' & E & L); [lia|].
    rewrite Z2Nat.id in E by lia. rewrite E. cbn [bind].
    replace (n <? Z.of_nat (length ts)) with true by (symmetry; apply Z.ltb_lt; lia).
    exists (mkModel e' (m_lr m) (m_base m) []). cbn [m_ens m_lr m_base m_cache]. repeat (split; auto). lia.
Qed.

(** ** The feature check *)
Lemma in_consecutive ts : forall a j, consecutive (N:=N) a ts -> a <= j < a + Z.of_nat (total_size ts) ->
  exists t, In t ts /\ In j (marks t).
Proof.
  induction ts as [|t ts IH]; intros a j Hc Hj.
  - change (total_size []) with 0%nat in Hj. lia.
  - rewrite total_size_cons in Hj. cbn [consecutive] in Hc. destruct Hc as (H1 & H2 & H3).
    destruct (Z_lt_ge_dec j (a + Z.of_nat (size t))) as [Hlt|Hge].
    + exists t. split; [left; reflexivity|]. eapply Permutation_in; [apply Permutation_sym; exact H2|].
      apply in_zrange. lia.
    + destruct (IH _ j H3) as (t' & H4 & H5); [lia|]. exists t'. split; [right; exact H4|exact H5].
Qed.
Lemma rep_feature e t j : represents e t -> In j (marks t) ->
  zget (e_feature e) j = Some (-1) \/ exists f, In f (splits t) /\ zget (e_feature e) j = Some f.
Proof.
  induction t as [i v|i f thr l IHl r IHr]; cbn [represents marks splits In]; intros H Hj.
  - destruct Hj as [<-|[]]. left. apply H.
  - destruct H as (_ & _ & H3 & _ & Hl & Hr). destruct Hj as [<-|Hj].
    + right. exists f. auto.
    + apply in_app_or in Hj as [Hj|Hj].
      * destruct (IHl Hl Hj) as [H|(g & H & E)]; [left; exact H|right]. exists g. split; [right; apply in_or_app; auto|exact E].
      * destruct (IHr Hr Hj) as [H|(g & H & E)]; [left; exact H|right]. exists g. split; [right; apply in_or_app; auto|exact E].
Qed.
Lemma split_feature e t f : represents e t -> In f (splits t) -> In f (e_feature e).
Proof.
  assert (Hin : forall {A} (l : list A) i x, zget l i = Some x -> In x l).
  { intros A l i x. unfold zget. destruct (i <? 0); [discriminate|]. apply nth_error_In. }
  induction t as [i v|i g thr l IHl r IHr]; cbn [represents splits In]; intros H Hf; [destruct Hf|].
  destruct H as (_ & _ & H3 & _ & Hl & Hr). destruct Hf as [<-|Hf]; [eapply Hin; eauto|].
  apply in_app_or in Hf as [Hf|Hf]; auto.
Qed.
Lemma max_feature_spec e : e_feature e <> [] ->
  exists m, max_feature e = Ok m /\ In m (e_feature e) /\ Forall (fun x => x <= m) (e_feature e).
Proof.
  unfold max_feature. destruct (e_feature e) as [|x l]; [congruence|]. intros _. eexists. split; [reflexivity|].
  revert x. induction l as [|y l IH]; intros x; cbn [fold_left].
  - split; [left; reflexivity|]. repeat constructor. lia.
  - destruct (IH (Z.max x y)) as (H1 & H2). inversion H2 as [|? ? H3 H4]; subst.
    split; [|repeat constructor; auto; lia].
    destruct H1 as [H1|H1]; [|right; right; exact H1]. rewrite <- H1.
    destruct (Z.max_spec x y) as [[_ ->]|[_ ->]]; [right; left|left]; reflexivity.
Qed.

Lemma total_pos (ts : list (tree Z N)) : ts <> [] -> (0 < total_size ts)%nat.
Proof. destruct ts as [|t ts]; [congruence|]. intros _. rewrite total_size_cons. pose proof (size_pos t). lia. Qed.

Theorem C37_check_lemma e ts ws (d : dataset N) : laid_out e ts ws -> ts <> [] ->
  (check_features e d = Err RuntimeError /\ too_wide (ds_nf d) ts) \/
  (check_features e d = Ok tt /\ ~ too_wide (ds_nf d) ts).
Proof.
  intros (He & Hc & Hn & L1 & L2 & L3 & L4) Hne.
  pose proof (total_pos ts Hne) as Hpos.
  destruct (max_feature_spec e) as (m & E & Hin & Hmax); [intros E; rewrite E in L4; cbn in L4; lia|].
  pose proof He as (_ & _ & _ & _ & Hrep). rewrite Forall_forall in Hrep, Hmax.
  unfold check_features. rewrite E. cbn [bind].
  destruct (Z.ltb_spec (Z.of_nat (ds_nf d)) (m + 1)) as [Hlt|Hge]; [left|right].
  - split; [reflexivity|].
    apply In_nth_error in Hin as [k Hk].
    assert (Hkl : (k < length (e_feature e))%nat) by (apply nth_error_Some; congruence).
    destruct (in_consecutive ts 0 (Z.of_nat k) Hc) as (t & Ht & Hj); [lia|].
    destruct (rep_feature e t (Z.of_nat k) (Hrep t Ht) Hj) as [F|(f & Hf & F)]; rewrite zget_nat in F; rewrite Hk in F; injection F as F.
    + lia.
    + exists t, f. split; [exact Ht|]. split; [exact Hf|lia].
  - split; [reflexivity|]. intros (t & f & Ht & Hf & Hle). pose proof (Hmax f (split_feature e t f (Hrep t Ht) Hf)). lia.
Qed.

Lemma covers_of_check e ts ws (d : dataset N) row :
  laid_out e ts ws -> ~ too_wide (ds_nf d) ts -> nonneg_features ts ->
  length row = ds_nf d -> covers row ts.
Proof.
  intros _ Hw Hpos Hl. unfold covers, nonneg_features in *. rewrite Forall_forall in *. intros t Ht.
  specialize (Hpos t Ht). rewrite Forall_forall in *. intros f Hf. split; [auto|].
  destruct (Z_lt_ge_dec f (Z.of_nat (length row))) as [H|H]; [exact H|].
  exfalso. apply Hw. exists t, f. repeat split; auto. rewrite <- Hl. lia.
Qed.
End Layout.
