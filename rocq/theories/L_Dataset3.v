(** Proofs about kfold, get_query_offsets, subset_features and equality. *)
From Coq Require Import List ZArith QArith Lia Bool Permutation Sorted.
From Verif Require Import Base Lists M_Dataset S_Dataset L_Dataset L_Dataset2.
Import ListNotations.
Local Open Scope Z_scope.

(** ** Integer ranges *)
Lemma zrange_length a b : length (zrange a b) = Z.to_nat (b - a).
Proof. unfold zrange. rewrite map_length, seq_length. auto. Qed.

Lemma zrange_empty a b : b <= a -> zrange a b = [].
Proof. intros H. unfold zrange. replace (Z.to_nat (b - a)) with 0%nat by lia. auto. Qed.

Lemma zrange_app a b c : a <= b <= c -> zrange a c = zrange a b ++ zrange b c.
Proof.
  intros H. unfold zrange.
  rewrite (@seq_split 0 (Z.to_nat (c - a)) (Z.to_nat (b - a))) by lia.
  rewrite map_app. f_equal. rewrite map_seq_shift.
  replace (Z.to_nat (c - a) - Z.to_nat (b - a))%nat with (Z.to_nat (c - b)) by lia.
  apply map_ext. intros i. lia.
Qed.

Lemma in_zrange a b i : In i (zrange a b) <-> a <= i < b.
Proof.
  unfold zrange. rewrite in_map_iff. split.
  - intros (k & <- & Hk). apply in_seq in Hk. lia.
  - intros H. exists (Z.to_nat (i - a)). split; [lia|]. apply in_seq. lia.
Qed.

Lemma map_mod_small n a b : 0 <= a -> b <= n -> map (fun i => i mod n) (zrange a b) = zrange a b.
Proof.
  intros Ha Hb. rewrite <- (map_id (zrange a b)) at 2. apply map_ext_in.
  intros i Hi. apply in_zrange in Hi. apply Z.mod_small. lia.
Qed.

Lemma map_mod_wrap n b : 0 <= b <= n -> map (fun i => i mod n) (zrange n (n + b)) = zrange 0 b.
Proof.
  intros Hb. unfold zrange. rewrite map_map. replace (n + b - n) with (b - 0) by lia.
  apply map_ext_in. intros i Hi. apply in_seq in Hi.
  replace (n + Z.of_nat i) with (Z.of_nat i + 1 * n) by lia.
  rewrite Z.mod_add by lia. rewrite Z.mod_small by lia. lia.
Qed.

Lemma fold_range_le n a b : 0 <= a <= b -> b <= n -> fold_range n a b = zrange a b.
Proof.
  intros H1 H2. unfold fold_range. destruct (Z.ltb_spec b a); [lia|]. apply map_mod_small; lia.
Qed.

Lemma fold_range_gt n a b : 0 <= b < a -> a <= n -> fold_range n a b = zrange a n ++ zrange 0 b.
Proof.
  intros H1 H2. unfold fold_range. destruct (Z.ltb_spec b a); [|lia].
  rewrite (zrange_app a n (b + n)) by lia. rewrite map_app.
  rewrite map_mod_small by lia. f_equal. rewrite Z.add_comm. apply map_mod_wrap. lia.
Qed.

Section Arith.
Variables n k : Z.
Hypothesis Hk : 3 <= k.
Hypothesis Hn : k <= n.

Lemma fs_pos : 1 <= n / k.
Proof. apply Z.div_le_lower_bound; lia. Qed.
Lemma fs_k : n / k * k + n mod k = n.
Proof. rewrite Z.mul_comm. symmetry. apply Z.div_mod. lia. Qed.

(** Closed form of the three index ranges. *)
Lemma kfold_indices_closed c : 0 <= c < k ->
  let fs := n / k in
  kfold_indices n k c =
  if c =? 0 then (zrange 0 (fs * (k - 2)), zrange (fs * (k - 2)) (fs * (k - 1)), zrange (fs * (k - 1)) n)
  else if c =? 1 then (zrange fs (fs * (k - 1)), zrange (fs * (k - 1)) n, zrange 0 fs)
  else (zrange (fs * c) n ++ zrange 0 (fs * (c - 2)), zrange (fs * (c - 2)) (fs * (c - 1)),
        zrange (fs * (c - 1)) (fs * c)).
Proof.
  intros Hc fs. unfold kfold_indices. fold fs.
  pose proof fs_pos as Hf. pose proof fs_k as Hfk. fold fs in Hf, Hfk.
  pose proof (Z.mod_pos_bound n k ltac:(lia)) as Hm.
  assert (Hkk : fs * k <= n) by lia.
  assert (Hmul : forall x y, 0 <= x -> x + 1 <= y -> y <= k -> 0 <= fs * x /\ fs * x + 1 <= fs * y /\ fs * y <= n).
  { intros x y Hx Hxy Hy.
    assert (fs * y <= fs * k) by (apply Z.mul_le_mono_nonneg_l; lia).
    assert (fs * x + fs * 1 <= fs * y) by (rewrite <- Z.mul_add_distr_l; apply Z.mul_le_mono_nonneg_l; lia).
    assert (0 <= fs * x) by (apply Z.mul_nonneg_nonneg; lia). lia. }
  destruct (Z.eqb_spec c 0) as [->|Hc0].
  - replace ((0 - 2) mod k) with (k - 2) by (apply Z.mod_unique with (q := -1); lia).
    replace ((0 - 1) mod k) with (k - 1) by (apply Z.mod_unique with (q := -1); lia).
    rewrite Z.mul_0_r.
    destruct (Hmul (k - 2) (k - 1)) as (A1 & A2 & A3); try lia.
    destruct (Hmul 0 (k - 2)) as (B1 & B2 & B3); try lia.
    rewrite !fold_range_le by lia. rewrite fold_range_gt by lia.
    rewrite (zrange_empty 0 0) by lia. rewrite app_nil_r. auto.
  - destruct (Z.eqb_spec c 1) as [->|Hc1].
    + replace ((1 - 2) mod k) with (k - 1) by (apply Z.mod_unique with (q := -1); lia).
      replace ((1 - 1) mod k) with 0 by (rewrite Z.mod_small; lia).
      rewrite Z.mul_0_r, Z.mul_1_r.
      destruct (Hmul 1 (k - 1)) as (A1 & A2 & A3); try lia. rewrite Z.mul_1_r in A2.
      rewrite (fold_range_le n fs) by lia. rewrite (fold_range_le n 0) by lia.
      rewrite fold_range_gt by lia. rewrite (zrange_empty 0 0) by lia. rewrite app_nil_r. auto.
    + rewrite !Z.mod_small by lia.
      destruct (Hmul (c - 2) (c - 1)) as (A1 & A2 & A3); try lia.
      destruct (Hmul (c - 1) c) as (B1 & B2 & B3); try lia.
      rewrite (fold_range_gt n (fs * c)) by lia. rewrite !fold_range_le by lia. auto.
Qed.

Lemma fs_mono x y : 0 <= x <= y -> y <= k -> 0 <= n / k * x <= n / k * y /\ n / k * y <= n.
Proof.
  intros H H'. pose proof fs_pos. pose proof fs_k.
  pose proof (Z.mod_pos_bound n k ltac:(lia)) as Hm.
  assert (n / k * y <= n / k * k) by (apply Z.mul_le_mono_nonneg_l; lia).
  assert (n / k * x <= n / k * y) by (apply Z.mul_le_mono_nonneg_l; lia).
  assert (0 <= n / k * x) by (apply Z.mul_nonneg_nonneg; lia). lia.
Qed.

Lemma kfold_indices_perm c : 0 <= c < k ->
  let '(a, b, t) := kfold_indices n k c in Permutation (a ++ b ++ t) (zrange 0 n).
Proof.
  intros Hc. rewrite (kfold_indices_closed c Hc). cbv zeta.
  destruct (Z.eqb_spec c 0); [|destruct (Z.eqb_spec c 1)].
  - destruct (fs_mono (k - 2) (k - 1)); [lia..|].
    rewrite (zrange_app 0 (n / k * (k - 2)) n) by lia.
    rewrite (zrange_app (n / k * (k - 2)) (n / k * (k - 1)) n) by lia. auto.
  - destruct (fs_mono 1 (k - 1)); [lia..|].
    rewrite (zrange_app 0 (n / k) n) by lia.
    rewrite (zrange_app (n / k) (n / k * (k - 1)) n) by lia.
    rewrite (app_assoc (zrange (n / k) _)). apply Permutation_app_comm.
  - destruct (fs_mono (c - 2) (c - 1)); [lia..|]. destruct (fs_mono (c - 1) c); [lia..|].
    rewrite (zrange_app 0 (n / k * (c - 2)) n) by lia.
    rewrite (zrange_app (n / k * (c - 2)) (n / k * (c - 1)) n) by lia.
    rewrite (zrange_app (n / k * (c - 1)) (n / k * c) n) by lia.
    set (A := zrange 0 _). set (B := zrange (n / k * (c - 2)) _). set (C := zrange (n / k * (c - 1)) _).
    set (D := zrange (n / k * c) n).
    rewrite <- app_assoc. rewrite Permutation_app_comm. rewrite <- !app_assoc. auto.
Qed.

Lemma kfold_indices_sizes c : 0 <= c < k ->
  let '(a, b, t) := kfold_indices n k c in
  let fs := n / k in let extra := n mod k in
  Z.of_nat (length t) = (if c =? 0 then fs + extra else fs) /\
  Z.of_nat (length b) = (if c =? 1 then fs + extra else fs) /\
  Z.of_nat (length a) = n - Z.of_nat (length b) - Z.of_nat (length t).
Proof.
  intros Hc. pose proof (kfold_indices_perm c Hc) as HP. pose proof fs_k as Hfk.
  pose proof (Z.mod_pos_bound n k ltac:(lia)) as Hm. pose proof fs_pos as Hfp.
  destruct (kfold_indices n k c) as [[a b] t] eqn:E. cbv zeta.
  apply Permutation_length in HP. rewrite !app_length, zrange_length in HP.
  rewrite (kfold_indices_closed c Hc) in E. cbv zeta in E.
  destruct (Z.eqb_spec c 0); [|destruct (Z.eqb_spec c 1)]; inversion E; subst.
  - rewrite !zrange_length in *. destruct (Z.eqb_spec 0 1); [lia|].
    destruct (fs_mono (k - 2) (k - 1)); [lia..|]. split; [|split]; lia.
  - rewrite !zrange_length in *. destruct (fs_mono 1 (k - 1)); [lia..|]. split; [|split]; lia.
  - rewrite !zrange_length in *. destruct (fs_mono (c - 2) (c - 1)); [lia..|].
    destruct (fs_mono (c - 1) c); [lia..|]. split; [|split]; lia.
Qed.

(** Ranges [fs*i, fs*(i+1)) concatenated. *)
Lemma zrange_blocks fs m : 0 <= fs ->
  concat (map (fun c => zrange (fs * Z.of_nat c) (fs * (Z.of_nat c + 1))) (seq 0 m)) = zrange 0 (fs * Z.of_nat m).
Proof.
  intros Hf. induction m as [|m IH].
  - cbn. rewrite Z.mul_0_r, zrange_empty; auto; lia.
  - rewrite seq_S, map_app, concat_app, IH. cbn [map concat]. rewrite app_nil_r.
    replace (Z.of_nat (0 + m)) with (Z.of_nat m) by lia.
    rewrite (zrange_app 0 (fs * Z.of_nat m) (fs * Z.of_nat (S m))).
    + f_equal. f_equal. lia.
    + split; [apply Z.mul_nonneg_nonneg; lia|]. apply Z.mul_le_mono_nonneg_l; lia.
Qed.

Definition test_idx (x : list Z * list Z * list Z) : list Z := snd x.
Definition vali_idx (x : list Z * list Z * list Z) : list Z := snd (fst x).

Lemma seq_S_shift m : seq 0 (S m) = 0%nat :: map S (seq 0 m).
Proof. cbn. f_equal. symmetry. apply seq_shift. Qed.

Lemma kfold_tests_perm :
  Permutation (concat (map (fun c => test_idx (kfold_indices n k (Z.of_nat c))) (seq 0 (Z.to_nat k))))
              (zrange 0 n).
Proof.
  replace (Z.to_nat k) with (S (Z.to_nat (k - 1))) by lia.
  rewrite seq_S_shift. cbn [map concat]. rewrite map_map.
  rewrite (kfold_indices_closed (Z.of_nat 0)) by lia. change (Z.of_nat 0 =? 0) with true. cbv iota. cbn [test_idx snd].
  rewrite Permutation_app_comm.
  rewrite (map_ext_in _ (fun c => zrange (n / k * Z.of_nat c) (n / k * (Z.of_nat c + 1)))).
  - rewrite zrange_blocks by (pose proof fs_pos; lia).
    replace (Z.of_nat (Z.to_nat (k - 1))) with (k - 1) by lia.
    destruct (fs_mono (k - 1) (k - 1)); [lia..|].
    rewrite (zrange_app 0 (n / k * (k - 1)) n) by lia. auto.
  - intros c Hc. apply in_seq in Hc. rewrite kfold_indices_closed by lia. cbv zeta.
    destruct (Z.eqb_spec (Z.of_nat (S c)) 0); [lia|].
    destruct (Z.eqb_spec (Z.of_nat (S c)) 1); cbn [test_idx snd].
    + assert (c = 0%nat) by lia. subst. change (Z.of_nat 0) with 0.
      rewrite Z.mul_0_r, Z.add_0_l, Z.mul_1_r. auto.
    + f_equal; f_equal; lia.
Qed.

Lemma kfold_valis_perm :
  Permutation (concat (map (fun c => vali_idx (kfold_indices n k (Z.of_nat c))) (seq 0 (Z.to_nat k))))
              (zrange 0 n).
Proof.
  replace (Z.to_nat k) with (S (S (Z.to_nat (k - 2)))) by lia.
  rewrite seq_S_shift. rewrite seq_S_shift. cbn [map concat]. rewrite !map_map.
  rewrite (kfold_indices_closed (Z.of_nat 0)) by lia.
  rewrite (kfold_indices_closed (Z.of_nat 1)) by lia.
  change (Z.of_nat 0 =? 0) with true. change (Z.of_nat 1 =? 0) with false.
  change (Z.of_nat 1 =? 1) with true. cbv iota. cbn [vali_idx snd fst].
  rewrite (map_ext_in _ (fun c => zrange (n / k * Z.of_nat c) (n / k * (Z.of_nat c + 1)))).
  - rewrite zrange_blocks by (pose proof fs_pos; lia).
    replace (Z.of_nat (Z.to_nat (k - 2))) with (k - 2) by lia.
    destruct (fs_mono (k - 2) (k - 1)); [lia..|].
    rewrite (zrange_app 0 (n / k * (k - 2)) n) by lia.
    rewrite (zrange_app (n / k * (k - 2)) (n / k * (k - 1)) n) by lia.
    set (A := zrange (n / k * (k - 2)) _). set (B := zrange (n / k * (k - 1)) n). set (C := zrange 0 _).
    rewrite app_assoc. apply Permutation_app_comm.
  - intros c Hc. apply in_seq in Hc. rewrite kfold_indices_closed by lia. cbv zeta.
    destruct (Z.eqb_spec (Z.of_nat (S (S c))) 0); [lia|].
    destruct (Z.eqb_spec (Z.of_nat (S (S c))) 1); [lia|]. cbn [vali_idx snd fst].
    f_equal; f_equal; lia.
Qed.
End Arith.

Lemma gather_app q a b : gather q (a ++ b) = gather q a ++ gather q b.
Proof. apply map_app. Qed.

Lemma gather_all q : gather q (zrange 0 (Z.of_nat (length q))) = q.
Proof.
  apply nth_error_ext'. intros i. unfold gather, zrange.
  rewrite !nth_error_map', nth_error_seq. rewrite Z.sub_0_r, Nat2Z.id.
  destruct (Nat.ltb_spec i (length q)).
  - cbn. rewrite Nat2Z.id. symmetry. apply nth_error_nth'. auto.
  - cbn. symmetry. apply nth_error_None. lia.
Qed.

Lemma gather_perm q a b : Permutation a b -> Permutation (gather q a) (gather q b).
Proof. apply Permutation_map. Qed.

Lemma gather_length q a : length (gather q a) = length a.
Proof. apply map_length. Qed.

Lemma gather_concat q l : gather q (concat l) = concat (map (gather q) l).
Proof. unfold gather. rewrite concat_map. auto. Qed.

Definition kfold_one (k : nat) (qids : list Z) (c : nat) : list Z * list Z * list Z :=
  let '(a, b, t) := kfold_indices (Z.of_nat (length qids)) (Z.of_nat k) (Z.of_nat c) in
  (gather qids a, gather qids b, gather qids t).

Lemma kfold_qids_eq k qids fs : kfold_qids k qids = Ok fs -> fs = map (kfold_one k qids) (seq 0 k) /\ (0 < k)%nat.
Proof.
  destruct k as [|k]; [discriminate|]. unfold kfold_qids. intros H. split; [|lia].
  apply (f_equal (fun r => match r with Ok x => x | Err _ => [] end)) in H. symmetry. exact H.
Qed.

Lemma C06_lemma (k : nat) qids c tr va te :
  (3 <= k)%nat -> (k <= length qids)%nat ->
  (exists fs, kfold_qids k qids = Ok fs /\ nth_error fs c = Some (tr, va, te)) ->
  Permutation (tr ++ va ++ te) qids /\
  (length te = length qids / k + (if Nat.eqb c 0 then length qids mod k else 0))%nat /\
  (length va = length qids / k + (if Nat.eqb c 1 then length qids mod k else 0))%nat.
Proof.
  intros Hk Hn (fs & Hfs & Hc). destruct (kfold_qids_eq _ _ _ Hfs) as [-> _]. clear Hfs.
  rewrite nth_error_map', nth_error_seq in Hc. destruct (Nat.ltb_spec c k); [|discriminate].
  cbn [option_map Nat.add] in Hc. unfold kfold_one in Hc.
  assert (Hk' : 3 <= Z.of_nat k) by lia. assert (Hn' : Z.of_nat k <= Z.of_nat (length qids)) by lia.
  assert (Hc' : 0 <= Z.of_nat c < Z.of_nat k) by lia.
  pose proof (kfold_indices_perm _ _ Hk' Hn' _ Hc') as HP.
  pose proof (kfold_indices_sizes _ _ Hk' Hn' _ Hc') as HS.
  destruct (kfold_indices _ _ (Z.of_nat c)) as [[a b] t]. inversion Hc; subst; clear Hc.
  split.
  - rewrite <- !gather_app. rewrite (gather_perm _ _ _ HP). rewrite gather_all. auto.
  - rewrite !gather_length. cbv zeta in HS. destruct HS as (H1 & H2 & _).
    rewrite <- Nat2Z.inj_div, <- Nat2Z.inj_mod in H1, H2.
    split.
    + destruct (Nat.eqb_spec c 0); destruct (Z.eqb_spec (Z.of_nat c) 0); lia.
    + destruct (Nat.eqb_spec c 1); destruct (Z.eqb_spec (Z.of_nat c) 1); lia.
Qed.

Lemma C07_lemma (k : nat) qids fs :
  (3 <= k)%nat -> (k <= length qids)%nat -> kfold_qids k qids = Ok fs ->
  Permutation (concat (map snd fs)) qids /\ Permutation (concat (map (fun f => snd (fst f)) fs)) qids.
Proof.
  intros Hk Hn Hfs. destruct (kfold_qids_eq _ _ _ Hfs) as [-> _]. clear Hfs.
  assert (Hk' : 3 <= Z.of_nat k) by lia. assert (Hn' : Z.of_nat k <= Z.of_nat (length qids)) by lia.
  rewrite !map_map.
  pose proof (kfold_tests_perm _ _ Hk' Hn') as HT. pose proof (kfold_valis_perm _ _ Hk' Hn') as HV.
  rewrite Nat2Z.id in HT, HV. split.
  - transitivity (gather qids (zrange 0 (Z.of_nat (length qids)))); [|rewrite gather_all; auto].
    rewrite <- (gather_perm _ _ _ HT), gather_concat, map_map.
    erewrite map_ext; [reflexivity|]. intros c. cbn beta. unfold kfold_one, test_idx, vali_idx.
    destruct (kfold_indices _ _ (Z.of_nat c)) as [[a b] t]. auto.
  - transitivity (gather qids (zrange 0 (Z.of_nat (length qids)))); [|rewrite gather_all; auto].
    rewrite <- (gather_perm _ _ _ HV), gather_concat, map_map.
    erewrite map_ext; [reflexivity|]. intros c. cbn beta. unfold kfold_one, test_idx, vali_idx.
    destruct (kfold_indices _ _ (Z.of_nat c)) as [[a b] t]. auto.
Qed.

(** Two folds: the training part is always empty. *)
Lemma kfold_two_lemma qids fs c tr va te :
  kfold_qids 2 qids = Ok fs -> nth_error fs c = Some (tr, va, te) -> tr = [].
Proof.
  cbn [kfold_qids]. intros H; inversion H; subst; clear H.
  set (n := Z.of_nat (length qids)).
  assert (forall c, fold_range n (n / 2 * c) (n / 2 * c) = []) as Z.
  { intros x. unfold fold_range. destruct (Z.ltb_spec (n / 2 * x) (n / 2 * x)); [lia|].
    rewrite zrange_empty by lia. auto. }
  destruct c as [|[|c]]; cbn [map seq nth_error]; intros H;
    [| |destruct c; discriminate]; unfold kfold_indices in H; fold n in H.
  - change ((Z.of_nat 0 - 2) mod Z.of_nat 2) with (Z.of_nat 0) in H.
    change (Z.of_nat 2) with 2 in H. rewrite Z in H. inversion H; auto.
  - change ((Z.of_nat 1 - 2) mod Z.of_nat 2) with (Z.of_nat 1) in H.
    change (Z.of_nat 2) with 2 in H. rewrite Z in H. inversion H; auto.
Qed.

(** Fewer queries than folds: all parts of all folds are empty. *)
Lemma kfold_few_lemma (k : nat) qids fs f :
  (length qids < k)%nat -> kfold_qids k qids = Ok fs -> In f fs -> f = ([], [], []).
Proof.
  intros Hk Hfs Hf. destruct (kfold_qids_eq _ _ _ Hfs) as [-> _]. clear Hfs.
  apply in_map_iff in Hf. destruct Hf as (c & E & _). unfold kfold_one in E.
  unfold kfold_indices in E. rewrite Z.div_small in E by lia. rewrite !Z.mul_0_l in E.
  assert (forall n, fold_range n 0 0 = []) as Z by (intros; reflexivity).
  rewrite !Z in E. auto.
Qed.

Section DS.
Context {V : Type}.
Implicit Types (d : dataset V).

Lemma foldset_rows nf X y ids d tr va te :
  built nf X y ids d -> Permutation (tr ++ va ++ te) (ds_qids d) ->
  Permutation (filter (fun r => memz tr (fst r)) (rows d) ++ filter (fun r => memz va (fst r)) (rows d)
               ++ filter (fun r => memz te (fst r)) (rows d)) (rows d).
Proof.
  intros B HP. pose proof B as (_ & _ & _ & H).
  assert (HN : NoDup (tr ++ va ++ te)).
  { eapply Permutation_NoDup; [symmetry; exact HP|]. eapply ds_qids_NoDup; eauto. }
  destruct (NoDup_app_inv _ _ HN) as (N1 & N23 & D1). destruct (NoDup_app_inv _ _ N23) as (N2 & N3 & D2).
  rewrite (filter_or_perm (fun r => memz va (fst r))).
  2:{ intros r _ Ha Hb. apply memz_In in Ha, Hb. apply (D2 (fst r)); auto. }
  rewrite filter_or_perm.
  2:{ intros r _ Ha Hb. apply memz_In in Ha. apply (D1 (fst r)); auto. apply in_app_iff.
      apply orb_prop in Hb. destruct Hb as [Hb|Hb]; apply memz_In in Hb; auto. }
  rewrite filter_true; auto. intros r Hr. rewrite <- !memz_app. apply memz_In.
  eapply Permutation_in; [symmetry; exact HP|]. apply (ds_qids_In _ _ _ _ _ _ H).
  eapply rows_fst_In; eauto.
Qed.

Lemma C06_dataset_lemma nf X y ids d k perm :
  built nf X y ids d -> Permutation perm (ds_qids d) ->
  (3 <= k)%nat -> (k <= n_queries d)%nat ->
  exists fs, kfold k perm d = Ok fs /\ length fs = k /\
    forall tr va te, In (tr, va, te) fs ->
      Permutation (rows tr ++ rows va ++ rows te) (rows d) /\
      whole_part d tr /\ whole_part d va /\ whole_part d te.
Proof.
  intros B HP Hk Hn. unfold kfold.
  assert (Hlen : length perm = n_queries d) by (apply Permutation_length; auto).
  destruct (kfold_qids k perm) as [qs|] eqn:E.
  2:{ destruct k; [lia|discriminate]. }
  cbn [bind].
  assert (Hl : length qs = k).
  { destruct (kfold_qids_eq _ _ _ E) as [-> _]. rewrite map_length, seq_length. auto. }
  set (g := fun f : list Z * list Z * list Z => _).
  assert (forall qs', (forall f, In f qs' -> In f qs) -> exists fs, mapM g qs' = Ok fs /\ length fs = length qs' /\
     forall tr va te, In (tr, va, te) fs ->
      Permutation (rows tr ++ rows va ++ rows te) (rows d) /\
      whole_part d tr /\ whole_part d va /\ whole_part d te) as G.
  { induction qs' as [|[[a b] t] qs' IH]; intros Hsub; cbn [mapM].
    - exists []. split; auto. split; auto. intros tr va te [].
    - destruct IH as (fs & Hfs & Hlf & Hr); [intros; apply Hsub; right; auto|].
      destruct (C03_lemma _ _ _ _ _ a B) as (da & Ea & Ra & Qa & Wa & _).
      destruct (C03_lemma _ _ _ _ _ b B) as (db & Eb & Rb & Qb & Wb & _).
      destruct (C03_lemma _ _ _ _ _ t B) as (dt & Et & Rt & Qt & Wt & _).
      unfold g at 1. rewrite Ea, Eb, Et, Hfs. cbn [bind].
      exists ((da, db, dt) :: fs). split; auto. split; [cbn; auto|].
      intros tr va te [EQ|Hin]; [|auto]. inversion EQ; subst.
      split.
      + rewrite Ra, Rb, Rt. eapply foldset_rows; eauto.
        assert (In (a, b, t) qs) as Hin by (apply Hsub; left; auto).
        apply In_nth_error in Hin. destruct Hin as [c Hc].
        destruct (C06_lemma (length qs) perm c a b t) as (HPP & _); try lia; eauto.
        rewrite HPP. auto.
      + repeat split; intros q Hq; [apply Qa in Hq|apply Qb in Hq|apply Qt in Hq];
          [apply Wa|apply Wb|apply Wt]; tauto. }
  destruct (G qs (fun f H => H)) as (fs & Hfs & Hlf & Hr).
  exists fs. split; auto. split; [lia|auto].
Qed.

(** ** get_query_offsets *)
Lemma C08_lemma nf X y ids d q :
  built nf X y ids d ->
  (In q ids -> exists s e, get_query_offsets q d = Ok (s, e) /\
     forall j, nth_error ids j = Some q <-> (s <= j < e)%nat) /\
  (~ In q ids -> get_query_offsets q d = Err AttributeError).
Proof.
  intros B. pose proof B as (Hy & Hg & Hr & H). unfold get_query_offsets.
  fold (memz (ds_qids d) q). split.
  - intros Hin. assert (Hq : In q (ds_qids d)) by (apply (ds_qids_In _ _ _ _ _ _ H); auto).
    assert (memz (ds_qids d) q = true) as -> by (apply memz_In; auto).
    destruct (first_index_spec _ _ Hq) as [Hf _]. set (s := first_index q (ds_qids d)) in *.
    assert (Hne : ids <> []) by (intros ->; destruct Hin).
    destruct (C01_lemma _ _ _ Hne H) as (_ & HS & _ & HL & HND & _).
    assert (Hs : (s < length (ds_qids d))%nat) by (apply nth_error_Some; congruence).
    unfold n_queries in HL.
    assert (Ha : nth_error (ds_offs d) s = Some (nth s (ds_offs d) 0%nat)) by (apply nth_error_nth'; lia).
    assert (Hb : nth_error (ds_offs d) (S s) = Some (nth (S s) (ds_offs d) 0%nat)) by (apply nth_error_nth'; lia).
    exists (nth s (ds_offs d) 0%nat), (nth (S s) (ds_offs d) 0%nat). split; auto.
    pose proof (blank_length _ _ _ _ H Hy) as Hbl.
    pose proof (get_qids_built B) as GQ. unfold get_qids_dataset in GQ.
    assert (R : forall i, In i ids -> i32 i = i).
    { intros i Hi. unfold int32_ids in Hr. rewrite Forall_forall in Hr. apply i32_id; auto. }
    intros j. split.
    + intros Hj. assert (Hjl : (j < length ids)%nat) by (apply nth_error_Some; congruence).
      destruct (@unroll_segment_exists _ _ _ _ _ _ j H Hjl) as (s' & a' & b' & Ha' & Hb' & Hab').
      destruct (@unroll_nth _ i32 (blank d) _ _ _ _ _ j s' a' b' H Hbl Ha' Hb' Hab') as (U & _ & Q).
      rewrite GQ in U.
      assert (In (nth a' ids 0) ids) as Hi by (apply (ds_qids_In _ _ _ _ _ _ H); eapply nth_error_In; eauto).
      rewrite R in U by auto. rewrite Hj in U. inversion U as [U'].
      rewrite <- U' in Q.
      assert (s = s') as <-.
      { apply (proj1 (NoDup_nth_error _) HND); [auto|congruence]. }
      rewrite Ha in Ha'. rewrite Hb in Hb'. inversion Ha'; inversion Hb'. lia.
    + intros Hj.
      destruct (@unroll_nth _ i32 (blank d) _ _ _ _ _ j s _ _ H Hbl Ha Hb Hj) as (U & _ & Q).
      rewrite GQ in U. rewrite Hf in Q. inversion Q as [Q']. rewrite <- Q' in U.
      rewrite R in U by auto. congruence.
  - intros Hn. destruct (memz (ds_qids d) q) eqn:E; auto. apply memz_In in E.
    apply (ds_qids_In _ _ _ _ _ _ H) in E. contradiction.
Qed.

(** ** subset_features *)
Lemma py_get_nonneg {A} (l : list A) f : 0 <= f < Z.of_nat (length l) ->
  exists v, py_get l f = Ok v /\ nth_error l (Z.to_nat f) = Some v.
Proof.
  intros Hf. unfold py_get. destruct (Z.ltb_spec f 0); [lia|].
  unfold zget. destruct (Z.ltb_spec f 0); [lia|].
  destruct (nth_error l (Z.to_nat f)) eqn:E; [exists a; auto|]. apply nth_error_None in E. lia.
Qed.

Lemma C10_lemma nf X y ids d fs :
  built nf X y ids d -> Forall (fun row => length row = nf) X ->
  Forall (fun f => 0 <= f < Z.of_nat nf) fs ->
  exists d', subset_features fs d = Ok d' /\
    ds_y d' = y /\ get_qids_dataset d' = ids /\ query_iterator d' = query_iterator d /\
    ds_nf d' = length fs /\ length (ds_X d') = length X /\
    forall i j row f, nth_error X i = Some row -> nth_error fs j = Some f ->
      exists row', nth_error (ds_X d') i = Some row' /\
                   nth_error row' j = nth_error row (Z.to_nat f) /\ length row' = length fs.
Proof.
  intros B HX Hfs. unfold subset_features.
  destruct (built_inv _ _ _ _ _ B) as (EX & Ey & _ & Hlen). rewrite EX, Ey, (get_qids_built B).
  set (sel := fun row : list V => mapM (fun f => py_get row f) fs).
  assert (Hsel : forall row, length row = nf -> exists row', sel row = Ok row' /\ length row' = length fs /\
     forall j f, nth_error fs j = Some f -> nth_error row' j = nth_error row (Z.to_nat f)).
  { intros row Hrow. unfold sel. clear - Hrow Hfs. induction fs as [|f fs IH]; cbn.
    - exists []. repeat split; auto. intros [|j] f; discriminate.
    - inversion Hfs; subst. destruct (IH H2) as (row' & E & L & N).
      destruct (py_get_nonneg row f) as (v & Ev & Hv); auto. rewrite Ev, E. cbn.
      exists (v :: row'). split; auto. split; [cbn; lia|].
      intros [|j] f'; cbn; intros Hf'; [inversion Hf'; subst; auto|auto]. }
  assert (G : exists X', mapM sel X = Ok X' /\ length X' = length X /\
     forall i row, nth_error X i = Some row -> exists row', nth_error X' i = Some row' /\
        length row' = length fs /\ forall j f, nth_error fs j = Some f -> nth_error row' j = nth_error row (Z.to_nat f)).
  { clear - HX Hsel. induction X as [|row X IH]; cbn.
    - exists []. repeat split; auto. intros [|i] row; discriminate.
    - inversion HX; subst. destruct (IH H2) as (X' & E & L & N).
      destruct (Hsel row eq_refl) as (row' & Er & Lr & Nr). rewrite Er, E. cbn.
      exists (row' :: X'). split; auto. split; [cbn; lia|].
      intros [|i] r; cbn; intros Hi; [inversion Hi; subst; eauto|auto]. }
  destruct G as (X' & E & L & N). rewrite E. cbn [bind].
  assert (HX' : length ids = length X') by lia.
  rewrite (ds_init_ok (length fs) X' y ids HX').
  eexists. split; [reflexivity|].
  match goal with |- context [mkDataset X' ?a ?b ?c ?e] => set (D := mkDataset X' a b c e) end.
  assert (B' : built (length fs) X' y ids D).
  { destruct B as (Hy & Hg & Hr & H). repeat split; auto. rewrite ds_init_ok; auto. }
  split; auto. split; [apply (get_qids_built B')|]. split.
  { destruct B as (_ & _ & _ & H). apply ds_init_inv in H. destruct H as [_ ->]. reflexivity. }
  split; auto. split; auto. intros i j row f Hi Hj. destruct (N i row Hi) as (row' & H1 & H2 & H3). eauto.
Qed.
End DS.

(** ** Equality *)
Section Eq.
Context {V : Type} (veqb : V -> V -> bool).
Hypothesis veqb_spec : forall a b, veqb a b = true <-> a = b.
Implicit Types (d : dataset V).

Lemma bdim_refl n : bdim n n = Some n.
Proof. unfold bdim. rewrite Nat.eqb_refl. auto. Qed.

Lemma bget_same {A} (l : list A) i : (i < length l)%nat -> bget l i = nth_error l i.
Proof.
  intros H. unfold bget. destruct (Nat.eqb_spec (length l) 1); auto.
  assert (i = 0)%nat by lia. subst; auto.
Qed.

Lemma arr_eq_same {A} (eqb : A -> A -> bool) (a b : list A) :
  (forall x y, eqb x y = true <-> x = y) -> length a = length b ->
  exists r, arr_eq eqb a b = Ok r /\ (r = true <-> a = b).
Proof.
  intros Hs Hl. unfold arr_eq. rewrite Hl, bdim_refl. eexists. split; [reflexivity|].
  rewrite forallb_forall. split.
  - intros H. apply nth_error_ext'. intros i.
    destruct (Nat.lt_ge_cases i (length b)) as [Hi|Hi].
    + specialize (H i). rewrite !bget_same in H by lia.
      destruct (nth_error a i) eqn:Ea, (nth_error b i) eqn:Eb; auto.
      * f_equal. apply Hs. apply H. apply in_seq. lia.
      * apply nth_error_None in Eb. lia.
      * apply nth_error_None in Ea. lia.
    + transitivity (@None A); [|symmetry]; apply nth_error_None; lia.
  - intros -> i Hi. destruct (bget b i); cbn; auto. apply Hs; auto.
Qed.

Lemma mat_eq_same (X X' : list (list V)) nf :
  length X = length X' -> Forall (fun r => length r = nf) X -> Forall (fun r => length r = nf) X' ->
  exists r, mat_eq veqb X nf X' nf = Ok r /\ (r = true <-> X = X').
Proof.
  intros Hl HX HX'. unfold mat_eq. rewrite Hl, !bdim_refl. eexists. split; [reflexivity|].
  rewrite forallb_forall. rewrite Forall_forall in HX, HX'.
  assert (G : forall (Y : list (list V)) i j, (i < length Y)%nat -> (forall r, In r Y -> length r = nf) ->
    (j < nf)%nat -> bget_row Y nf i j = match nth_error Y i with Some r => nth_error r j | None => None end).
  { intros Y i j Hi HY Hj. unfold bget_row. rewrite bget_same by auto.
    destruct (nth_error Y i); auto. destruct (Nat.eqb_spec nf 1); auto. assert (j = 0)%nat by lia. subst; auto. }
  split.
  - intros H. apply nth_error_ext'. intros i.
    destruct (Nat.lt_ge_cases i (length X')) as [Hi|Hi].
    + specialize (H i ltac:(apply in_seq; lia)). rewrite forallb_forall in H.
      destruct (nth_error X i) as [r|] eqn:Ea; [|apply nth_error_None in Ea; lia].
      destruct (nth_error X' i) as [r'|] eqn:Eb; [|apply nth_error_None in Eb; lia].
      f_equal. apply nth_error_ext'. intros j.
      assert (Lr : length r = nf) by (apply HX; eapply nth_error_In; eauto).
      assert (Lr' : length r' = nf) by (apply HX'; eapply nth_error_In; eauto).
      destruct (Nat.lt_ge_cases j nf) as [Hj|Hj].
      * specialize (H j ltac:(apply in_seq; lia)). rewrite !G in H by (auto; lia). rewrite Ea, Eb in H.
        destruct (nth_error r j) eqn:E1; [|apply nth_error_None in E1; lia].
        destruct (nth_error r' j) eqn:E2; [|apply nth_error_None in E2; lia].
        f_equal. apply veqb_spec. auto.
      * transitivity (@None V); [|symmetry]; apply nth_error_None; lia.
    + transitivity (@None (list V)); [|symmetry]; apply nth_error_None; lia.
  - intros -> i Hi. apply forallb_forall. intros j Hj. destruct (bget_row X' nf i j); cbn; auto.
    apply veqb_spec; auto.
Qed.

Lemma C09_lemma d d' :
  rect d -> rect d' -> same_shape d d' ->
  exists b, ds_eq veqb d d' = Ok b /\
    (b = true <-> ds_X d = ds_X d' /\ ds_y d = ds_y d' /\ ds_qids d = ds_qids d').
Proof.
  intros [R1 R1'] [R2 R2'] (S1 & S2 & S3). unfold ds_eq. rewrite <- S2 in *.
  destruct (mat_eq_same (ds_X d) (ds_X d') (ds_nf d)) as (x & Ex & Hx); auto.
  rewrite Ex. cbn [bind].
  destruct (arr_eq_same veqb (ds_y d) (ds_y d')) as (y & Ey & Hy); auto; [lia|].
  destruct (arr_eq_same Z.eqb (ds_qids d) (ds_qids d')) as (q & Eq & Hq); auto; [apply Z.eqb_eq|].
  destruct x.
  - rewrite Ey. cbn [bind]. destruct y.
    + exists q. split; auto. rewrite Hq. split; [intros; repeat split; auto; [apply Hx|apply Hy]; auto|tauto].
    + exists false. split; auto. split; [discriminate|]. intros (_ & E & _). apply Hy in E. discriminate.
  - exists false. split; auto. split; [discriminate|]. intros (E & _ & _). apply Hx in E. discriminate.
Qed.
End Eq.

(** Executable check of [grouped], for concrete cases. *)
Definition groupedb (ids : list Z) : bool :=
  let n := length ids in
  forallb (fun i => forallb (fun j => forallb (fun k =>
    match nth_error ids i, nth_error ids j, nth_error ids k with
    | Some a, Some b, Some c =>
        implb ((i <=? j)%nat && (j <=? k)%nat && (a =? c))%bool (b =? a)
    | _, _, _ => true end) (seq 0 n)) (seq 0 n)) (seq 0 n).

Lemma groupedb_ok ids : groupedb ids = true -> grouped ids.
Proof.
  unfold groupedb. rewrite forallb_forall. intros H i j k a Hijk Hi Hk.
  assert (Hkl : (k < length ids)%nat) by (apply nth_error_Some; congruence).
  assert (S : forall x, (x < length ids)%nat -> In x (seq 0 (length ids))) by (intros; apply in_seq; lia).
  specialize (H i (S i ltac:(lia))). rewrite forallb_forall in H.
  specialize (H j (S j ltac:(lia))). rewrite forallb_forall in H.
  specialize (H k (S k ltac:(lia))).
  destruct (nth_error ids j) as [b|] eqn:Hj; [|apply nth_error_None in Hj; lia].
  rewrite Hi, Hk in H. rewrite Z.eqb_refl in H.
  destruct (Nat.leb_spec i j); [|lia]. destruct (Nat.leb_spec j k); [|lia]. cbn in H.
  apply Z.eqb_eq in H. congruence.
Qed.

Definition int32b (ids : list Z) : bool := forallb (fun q => (- 2 ^ 31 <=? q) && (q <? 2 ^ 31))%bool ids.
Lemma int32b_ok ids : int32b ids = true -> int32_ids ids.
Proof.
  unfold int32b, int32_ids. rewrite forallb_forall, Forall_forall. intros H q Hq.
  apply H in Hq. apply andb_prop in Hq. destruct Hq as [A B]. apply Z.leb_le in A. apply Z.ltb_lt in B. lia.
Qed.

Lemma built_intro {V} nf X y ids (d : dataset V) :
  Nat.eqb (length y) (length ids) = true -> groupedb ids = true -> int32b ids = true ->
  ds_init nf X y ids = Ok d -> built nf X y ids d.
Proof.
  intros A B C D. split; [apply Nat.eqb_eq; auto|]. split; [apply groupedb_ok; auto|].
  split; [apply int32b_ok; auto|auto].
Qed.

Lemma C05_lemma {V} nf X y ids (d : dataset V) train vali perm tq vq :
  built nf X y ids d -> Permutation perm (ds_qids d) ->
  (QArith_base.Qle 0 train)%Q -> (QArith_base.Qle 0 vali)%Q -> (QArith_base.Qle (train + vali) 1)%Q ->
  nearest_even (train * QArith_base.inject_Z (Z.of_nat (n_queries d))) tq ->
  nearest_even (vali * QArith_base.inject_Z (Z.of_nat (n_queries d))) vq ->
  tq + vq < Z.of_nat (n_queries d) ->
  exists r, split train vali perm d = Ok r /\
    forall q z, In (q, z) (concat (map rows (split_parts r))) <-> In (q, z) (rows d) /\ 0 <= q.
Proof.
  intros B HP H1 H2 H3 H4 H5 H6.
  destruct (C04_lemma _ _ _ _ _ _ _ _ _ _ B HP H1 H2 H3 H4 H5 H6) as (r & E & Hr).
  exists r. split; auto. destruct r as [[tr vl] te]. destruct Hr as (_ & HPP & _).
  intros q z. rewrite (Permutation_in' eq_refl HPP). rewrite filter_In. cbn [fst]. rewrite Z.leb_le. tauto.
Qed.

Lemma C09_hash_lemma {V H} (veqb : V -> V -> bool) (digest : list (list V) -> list V -> list Z -> H) :
  (forall a b, veqb a b = true <-> a = b) ->
  forall d d' : dataset V,
  rect d -> rect d' -> same_shape d d' ->
  ds_eq veqb d d' = Ok true -> ds_hash digest d = ds_hash digest d'.
Proof.
  intros Hs d d' R R' S E. destruct (C09_lemma veqb Hs d d' R R' S) as (b & Eb & Hb).
  rewrite E in Eb. inversion Eb; subst b. destruct Hb as [Hb _]. destruct (Hb eq_refl) as (A & B & C).
  unfold ds_hash. congruence.
Qed.
