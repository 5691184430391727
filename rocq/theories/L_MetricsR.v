(** Metric proofs over the reals (exact arithmetic). *)
From Coq Require Import List ZArith Reals Lia Lra Bool Permutation Sorted.
From Verif Require Import Base Lists Num M_Dataset M_Metrics S_Metrics L_Metrics.
Import ListNotations.
Local Open Scope R_scope.

Ltac rlra := change (car RE) with R in *; change (@nzero RE) with 0%R in *; lra.

(** ** finite sums and counts *)
Lemma firstn_S_nth {A} (l : list A) k d : (k < length l)%nat -> firstn (S k) l = firstn k l ++ [nth k l d].
Proof.
  revert k. induction l as [|x l IH]; intros [|k] H; cbn in *; try lia; auto. f_equal. apply IH. lia.
Qed.

Lemma combine_snoc {A B} (a : list A) (b : list B) x y :
  length a = length b -> combine (a ++ [x]) (b ++ [y]) = combine a b ++ [(x, y)].
Proof.
  revert b. induction a as [|u a IH]; intros [|v b]; cbn; try discriminate; auto. intros. f_equal. apply IH. lia.
Qed.

Lemma nsum_snoc (l : list RE) x : nsum (l ++ [x]) = (nsum l + x)%R.
Proof. unfold nsum. rewrite fold_left_app. reflexivity. Qed.

Lemma nsum_prefix (f : nat -> RE -> RE) (l : list RE) K : (K <= length l)%nat ->
  nsum (map (fun p => f (fst p) (snd p)) (combine (seq 0 (length (firstn K l))) (firstn K l)))
  = Rsum (fun i => f i (nth i l 0%R)) K.
Proof.
  induction K as [|K IH]; intros H; [reflexivity|].
  rewrite (firstn_S_nth l K 0%R) by lia. rewrite app_length. cbn [length]. rewrite Nat.add_1_r, seq_S.
  rewrite firstn_length, Nat.min_l by lia. cbn [Nat.add].
  rewrite combine_snoc by (rewrite seq_length, firstn_length; lia). rewrite map_app. cbn [map fst snd]. rewrite nsum_snoc.
  cbn [Rsum]. f_equal. rewrite <- IH by lia. rewrite firstn_length, Nat.min_l by lia. reflexivity.
Qed.

Lemma count_prefix {A} (p : A -> bool) (l : list A) K d : (K <= length l)%nat ->
  count p (firstn K l) = num_of (fun i => p (nth i l d)) K.
Proof.
  induction K as [|K IH]; intros H; [reflexivity|].
  rewrite (firstn_S_nth l K d) by lia. unfold count in *. rewrite filter_app, app_length, IH by lia.
  cbn [num_of filter]. destruct (p (nth K l d)); cbn; lia.
Qed.

Lemma count_all {A} (p : A -> bool) (l : list A) d :
  count p l = num_of (fun i => p (nth i l d)) (length l).
Proof. rewrite <- (count_prefix p l (length l) d) by lia. rewrite firstn_all. auto. Qed.

Lemma num_of_le p n : (num_of p n <= n)%nat.
Proof. induction n; cbn; [lia|]. destruct (p n); lia. Qed.

Lemma num_of_mono p n m : (n <= m)%nat -> (num_of p n <= num_of p m)%nat.
Proof. induction 1; cbn; [lia|]. destruct (p m); lia. Qed.

Lemma num_of_all p n : (forall i, (i < n)%nat -> p i = true) -> num_of p n = n.
Proof. induction n; cbn; intros H; [auto|]. rewrite IHn, H by auto. lia. Qed.

Lemma num_of_all_iff p n : num_of p n = n <-> (forall i, (i < n)%nat -> p i = true).
Proof.
  split; [|apply num_of_all]. induction n; cbn; intros H i Hi; [lia|].
  pose proof (num_of_le p n). destruct (p n) eqn:E; [|lia].
  destruct (Nat.eq_dec i n) as [->|]; auto. apply IHn; lia.
Qed.

Lemma num_of_zero_iff p n : num_of p n = 0%nat <-> (forall i, (i < n)%nat -> p i = false).
Proof.
  induction n; cbn; [split; intros; auto; lia|]. split.
  - intros H i Hi. destruct (p n) eqn:E; [lia|]. destruct (Nat.eq_dec i n) as [->|]; auto. apply IHn; lia.
  - intros H. rewrite H by lia. rewrite (proj2 IHn); auto.
Qed.

Lemma num_of_ext p q n : (forall i, (i < n)%nat -> p i = q i) -> num_of p n = num_of q n.
Proof. induction n; cbn; intros H; auto. rewrite IHn, H by auto. auto. Qed.

Lemma Rsum_le f g n : (forall i, (i < n)%nat -> f i <= g i) -> Rsum f n <= Rsum g n.
Proof. induction n; cbn; intros H; [lra|]. specialize (IHn (fun i Hi => H i (Nat.lt_lt_succ_r _ _ Hi))). specialize (H n (Nat.lt_succ_diag_r n)). lra. Qed.

Lemma Rsum_ext f g n : (forall i, (i < n)%nat -> f i = g i) -> Rsum f n = Rsum g n.
Proof. induction n; cbn; intros H; auto. rewrite IHn, H by auto. auto. Qed.

Lemma Rsum_nonneg f n : (forall i, (i < n)%nat -> 0 <= f i) -> 0 <= Rsum f n.
Proof. induction n; cbn; intros H; [lra|]. specialize (IHn (fun i Hi => H i (Nat.lt_lt_succ_r _ _ Hi))). specialize (H n (Nat.lt_succ_diag_r n)). lra. Qed.

Lemma Rsum_mono_n f n m : (forall i, (i < m)%nat -> 0 <= f i) -> (n <= m)%nat -> Rsum f n <= Rsum f m.
Proof. intros H. induction 1; cbn; [lra|]. assert (0 <= f m) by (apply H; lia).
  assert (Rsum f n <= Rsum f m) by (apply IHle; intros; apply H; lia). lra. Qed.

Lemma Rsum_zero n : Rsum (fun _ => 0) n = 0.
Proof. induction n; cbn; lra. Qed.

Lemma Rsum_plus f g n : Rsum (fun i => f i + g i) n = Rsum f n + Rsum g n.
Proof. induction n; cbn; lra. Qed.

Lemma Rsum_scal c f n : Rsum (fun i => c * f i) n = c * Rsum f n.
Proof. induction n; cbn; [lra|]. rewrite IHn. lra. Qed.

Lemma Rsum_num_of (p : nat -> bool) n : Rsum (fun i => if p i then 1 else 0) n = INR (num_of p n).
Proof. induction n; cbn [Rsum num_of]; [reflexivity|]. rewrite IHn, plus_INR. destruct (p n); cbn; lra. Qed.

Lemma nofnat_R n : @nofnat RE n = INR n.
Proof. unfold nofnat. cbn. symmetry. apply INR_IZR_INZ. Qed.

Lemma INR_pos n : (0 < n)%nat -> 0 < INR n.
Proof. intros. apply lt_0_INR. auto. Qed.

Lemma ratio_bounds a b : (a <= b)%nat -> (0 < b)%nat -> 0 <= INR a / INR b <= 1.
Proof.
  intros H1 H2. apply le_INR in H1. apply INR_pos in H2. pose proof (pos_INR a). split.
  - apply Rmult_le_pos; auto. left. apply Rinv_0_lt_compat; auto.
  - apply Rmult_le_reg_r with (INR b); auto. unfold Rdiv. rewrite Rmult_assoc, Rinv_l by lra. lra.
Qed.

Section M.
Variable argsort : list RE -> list nat.
Hypothesis Hs : sorting argsort.
Implicit Types (y s : list RE) (norel thr pa p : RE).

Lemma K_le cutoff y s : (retrieved cutoff (length s) <= length (ranked argsort y s))%nat.
Proof. rewrite ranked_length by auto. apply retrieved_bound. Qed.

Lemma num_of_ranked (p : RE -> bool) y s : length y = length s ->
  num_of (fun i => p (lab argsort y s i)) (length s) = num_of (fun i => p (nth i y 0)) (length y).
Proof.
  intros HL. unfold lab. rewrite <- (count_all p y 0).
  replace (length s) with (length (ranked argsort y s)) by (apply ranked_length; auto).
  rewrite <- count_all. apply filter_count_perm. apply ranked_perm; auto.
Qed.

(** *** C20 *)
Lemma precision_lemma cutoff thr y s : length y = length s ->
  let K := retrieved cutoff (length s) in
  (K = 0%nat -> eval_per_query argsort (Precision cutoff thr) y s = Err ZeroDivisionError) /\
  ((0 < K)%nat ->
   eval_per_query argsort (Precision cutoff thr) y s
     = Ok (INR (num_of (fun i => Rleb thr (lab argsort y s i)) K) / INR K) /\
   0 <= INR (num_of (fun i => Rleb thr (lab argsort y s i)) K) / INR K <= 1).
Proof.
  intros HL K. rewrite eval_top by auto. cbn [cutoff_of top_value]. rewrite firstn_retrieved_length by auto.
  fold K. split.
  - intros ->. reflexivity.
  - intros HK. destruct (Nat.eqb_spec K 0); [lia|]. split.
    + rewrite (count_prefix _ _ K 0) by apply K_le. rewrite !nofnat_R. reflexivity.
    + apply ratio_bounds; auto. apply num_of_le.
Qed.

Lemma recall_lemma norel cutoff thr y s : length y = length s ->
  let K := retrieved cutoff (length s) in
  let rel := num_of (fun i => Rleb thr (nth i y 0)) (length y) in
  let hits := num_of (fun i => Rleb thr (lab argsort y s i)) K in
  (rel = 0%nat -> eval_per_query argsort (Recall norel cutoff thr) y s = Ok norel) /\
  ((0 < rel)%nat ->
   eval_per_query argsort (Recall norel cutoff thr) y s = Ok (INR hits / INR rel) /\
   0 <= INR hits / INR rel <= 1 /\ (cutoff = None -> INR hits / INR rel = 1)).
Proof.
  intros HL K rel hits. rewrite eval_top by auto. cbn [cutoff_of top_value].
  change (@nleb RE) with Rleb. rewrite (count_all _ y 0). fold rel.
  split.
  - intros ->. reflexivity.
  - intros HR. destruct (Nat.eqb_spec rel 0); [lia|]. cbn [negb].
    rewrite (count_prefix _ _ _ 0) by apply K_le. fold K. change (num_of _ K) with hits.
    assert (hits <= rel)%nat.
    { unfold hits, rel. rewrite <- (num_of_ranked (Rleb thr : RE -> bool) y s) by auto. apply num_of_mono. apply retrieved_bound. }
    rewrite !nofnat_R. split; auto. split; [apply ratio_bounds; auto|].
    intros ->. assert (hits = rel) as ->.
    { unfold hits, rel, K, retrieved. apply num_of_ranked. auto. }
    apply INR_pos in HR. unfold Rdiv. apply Rinv_r. lra.
Qed.

Lemma recall_mono_lemma norel c1 c2 thr y s v1 v2 : length y = length s ->
  (retrieved c1 (length s) <= retrieved c2 (length s))%nat ->
  eval_per_query argsort (Recall norel c1 thr) y s = Ok v1 ->
  eval_per_query argsort (Recall norel c2 thr) y s = Ok v2 -> v1 <= v2.
Proof.
  intros HL HK E1 E2. destruct (recall_lemma norel c1 thr y s HL) as [Z1 P1].
  destruct (recall_lemma norel c2 thr y s HL) as [Z2 P2]. cbv zeta in *.
  set (rel := num_of (fun i => Rleb thr (nth i y 0)) (length y)) in *.
  destruct (Nat.eq_dec rel 0) as [e|ne].
  - rewrite Z1 in E1 by auto. rewrite Z2 in E2 by auto. inversion E1; inversion E2; subst. lra.
  - assert (0 < rel)%nat as HR by lia. destruct (P1 HR) as [Q1 _]. destruct (P2 HR) as [Q2 _].
    rewrite Q1 in E1. rewrite Q2 in E2. inversion E1; inversion E2.
    apply Rmult_le_compat_r; [left; apply Rinv_0_lt_compat, INR_pos; auto|]. apply le_INR. apply num_of_mono. auto.
Qed.

(** *** C21 *)
Lemma find_pos_spec (p : RE -> bool) l k :
  match find_pos p k l with
  | Some i => (k <= i < k + length l)%nat /\ p (nth (i - k) l 0) = true /\
              forall j, (j < i - k)%nat -> p (nth j l 0) = false
  | None => forall j, (j < length l)%nat -> p (nth j l 0) = false
  end.
Proof.
  revert k. induction l as [|x l IH]; intros k; cbn [find_pos].
  - intros j; cbn; lia.
  - destruct (p x) eqn:E.
    + rewrite Nat.sub_diag. cbn. repeat split; auto; lia.
    + specialize (IH (S k)). destruct (find_pos p (S k) l) as [i|].
      * destruct IH as (B & T & F). cbn [length]. split; [lia|].
        replace (i - k)%nat with (S (i - S k)) by lia. cbn. split; auto.
        intros [|j] Hj; auto. apply F. lia.
      * intros [|j] Hj; cbn in *; auto. apply IH. lia.
Qed.

Lemma nth_firstn (l : list RE) K i d : (i < K)%nat -> nth i (firstn K l) d = nth i l d.
Proof. revert K i. induction l; intros [|K] [|i] H; cbn; auto; try lia. apply IHl. lia. Qed.

Lemma mrr_lemma cutoff thr y s : length y = length s ->
  let K := retrieved cutoff (length s) in
  (exists i, (i < K)%nat /\ thr <= lab argsort y s i /\ (forall j, (j < i)%nat -> lab argsort y s j < thr) /\
     eval_per_query argsort (MRR cutoff thr) y s = Ok (1 / INR (i + 1))) \/
  ((forall j, (j < K)%nat -> lab argsort y s j < thr) /\
     eval_per_query argsort (MRR cutoff thr) y s = Ok 0).
Proof.
  intros HL K. rewrite eval_top by auto. cbn [cutoff_of top_value]. fold K.
  set (l := firstn K (ranked argsort y s)).
  assert (Ll : length l = K) by (apply firstn_retrieved_length; auto).
  assert (Hn : forall i, (i < K)%nat -> nth i l 0 = lab argsort y s i) by (intros; apply nth_firstn; auto).
  pose proof (find_pos_spec (fun v => nleb thr v) l 0) as F.
  destruct (find_pos _ 0 l) as [i|].
  - left. destruct F as (B & T & F). exists i. rewrite Ll in B. rewrite Nat.sub_0_r in *. rewrite Hn in T by lia.
    split; [lia|]. split; [apply Rleb_true; auto|]. split.
    + intros j Hj. specialize (F j Hj). rewrite Hn in F by lia. apply Rleb_false. auto.
    + rewrite nofnat_R. cbn. rewrite plus_INR. reflexivity.
  - right. split; auto. intros j Hj. rewrite Ll in F. specialize (F j Hj). rewrite Hn in F by auto. apply Rleb_false; auto.
Qed.

Lemma mrr_mono_lemma c1 c2 thr y s v1 v2 : length y = length s ->
  (retrieved c1 (length s) <= retrieved c2 (length s))%nat ->
  eval_per_query argsort (MRR c1 thr) y s = Ok v1 ->
  eval_per_query argsort (MRR c2 thr) y s = Ok v2 -> v1 <= v2.
Proof.
  intros HL HK E1 E2.
  assert (P : forall i, 0 < 1 / INR (i + 1)).
  { intros i. apply Rmult_lt_0_compat; [lra|]. apply Rinv_0_lt_compat, INR_pos. lia. }
  destruct (mrr_lemma c1 thr y s HL) as [(i & B & T & F & E)|(F & E)]; rewrite E in E1; inversion E1; subst.
  - destruct (mrr_lemma c2 thr y s HL) as [(i' & B' & T' & F' & E')|(F' & E')]; rewrite E' in E2; inversion E2; subst.
    + assert (i = i') as ->.
      { destruct (Nat.lt_trichotomy i i') as [L|[L|L]]; auto; exfalso.
        - specialize (F' i L). lra.
        - specialize (F i' L). lra. }
      lra.
    + exfalso. specialize (F' i ltac:(lia)). lra.
  - destruct (mrr_lemma c2 thr y s HL) as [(i' & B' & T' & F' & E')|(F' & E')]; rewrite E' in E2; inversion E2; subst.
    + left. apply P.
    + lra.
Qed.

(** *** C22 *)
Definition ap_sum (rel : nat -> bool) (K : nat) : R :=
  Rsum (fun i => if rel i then INR (num_of rel (S i)) / INR (S i) else 0) K.

Lemma map_fold (l : list RE) K : (K <= length l)%nat ->
  fold_left map_step (firstn K l) (0%nat, 0%nat, (0%R : RE))
  = (K, num_of (fun i => Rltb 0 (nth i l 0)) K, ap_sum (fun i => Rltb 0 (nth i l 0)) K).
Proof.
  induction K as [|K IH]; intros H; [reflexivity|].
  rewrite (firstn_S_nth l K 0) by lia. rewrite fold_left_app, IH by lia. cbn [fold_left].
  unfold map_step. change (nltb (nzero : RE) (nth K l 0)) with (Rltb 0 (nth K l 0)).
  unfold ap_sum. cbn [Rsum num_of]. destruct (Rltb 0 (nth K l 0)) eqn:E.
  - rewrite !nofnat_R. rewrite Nat.add_1_r. reflexivity.
  - rewrite Nat.add_0_r. f_equal. symmetry. apply Rplus_0_r.
Qed.

Lemma ap_term_le rel i : INR (num_of rel (S i)) / INR (S i) <= 1.
Proof. apply ratio_bounds; [apply num_of_le|lia]. Qed.

Lemma ap_sum_le rel K : 0 <= ap_sum rel K <= INR (num_of rel K).
Proof.
  split.
  - apply Rsum_nonneg. intros i _. destruct (rel i); [|lra]. apply ratio_bounds; [apply num_of_le|lia].
  - rewrite <- Rsum_num_of. apply Rsum_le. intros i _. destruct (rel i); [|lra]. apply ap_term_le.
Qed.

Lemma ap_sum_S rel K :
  ap_sum rel (S K) = ap_sum rel K + (if rel K then INR (num_of rel (S K)) / INR (S K) else 0).
Proof. reflexivity. Qed.
Lemma num_of_S rel K : num_of rel (S K) = (num_of rel K + if rel K then 1 else 0)%nat.
Proof. reflexivity. Qed.

Lemma ap_sum_eq rel K : ap_sum rel K = INR (num_of rel K) ->
  forall i, (i < num_of rel K)%nat -> rel i = true.
Proof.
  induction K as [|K IH]; intros E i Hi; [cbn in Hi; lia|].
  rewrite ap_sum_S in E. pose proof (ap_term_le rel K) as T.
  rewrite num_of_S in E, Hi, T.
  pose proof (ap_sum_le rel K) as [_ L].
  destruct (rel K) eqn:EK.
  - set (q := INR (num_of rel K + 1) / INR (S K)) in *. rewrite plus_INR in E. change (INR 1) with 1 in E.
    assert (E1 : ap_sum rel K = INR (num_of rel K)) by lra.
    assert (E2 : q = 1) by lra.
    assert (E3 : INR (num_of rel K + 1) = INR (S K)).
    { assert (0 < INR (S K)) by (apply INR_pos; lia).
      apply Rmult_eq_reg_r with (/ INR (S K)); [|apply Rinv_neq_0_compat; lra].
      rewrite Rinv_r by lra. exact E2. }
    apply INR_eq in E3. assert (num_of rel K = K) as E4 by lia.
    destruct (Nat.eq_dec i K) as [->|]; auto. apply (proj1 (num_of_all_iff rel K) E4). lia.
  - rewrite Nat.add_0_r in E. apply IH; [lra|lia].
Qed.

Lemma num_of_prefix_true rel m K : (m <= K)%nat -> (forall i, (i < m)%nat -> rel i = true) ->
  num_of rel K = m -> forall i, (m <= i < K)%nat -> rel i = false.
Proof.
  intros Hm Ht. induction K as [|K IH]; intros E i Hi; [lia|]. cbn in E.
  destruct (Nat.eq_dec m (S K)) as [->|]; [lia|].
  assert (m <= num_of rel K)%nat by (rewrite <- (num_of_all rel m Ht) at 1; apply num_of_mono; lia).
  destruct (rel K) eqn:EK; [lia|]. destruct (Nat.eq_dec i K) as [->|]; auto. apply IH; lia.
Qed.

Lemma ap_sum_perfect rel m K : (m <= K)%nat -> (forall i, (i < m)%nat -> rel i = true) ->
  (forall i, (m <= i < K)%nat -> rel i = false) -> ap_sum rel K = INR m.
Proof.
  intros Hm Ht. induction K as [|K IH]; intros Hf.
  - assert (m = 0)%nat by lia. subst. reflexivity.
  - unfold ap_sum. cbn [Rsum]. fold (ap_sum rel K).
    destruct (Nat.eq_dec m (S K)) as [->|].
    + rewrite (Ht K) by lia.
      assert (A : num_of rel (S K) = S K) by (apply num_of_all; auto). rewrite A.
      assert (ap_sum rel K = INR K) as ->.
      { rewrite <- (num_of_all rel K) at 2 by (intros; apply Ht; lia).
        clear - Ht. induction K as [|K IHK]; [reflexivity|]. unfold ap_sum. cbn [Rsum]. fold (ap_sum rel K).
        rewrite IHK by (intros; apply Ht; lia). rewrite (Ht K) by lia.
        rewrite (num_of_all rel (S K)) by (intros; apply Ht; lia).
        rewrite (num_of_all rel K) by (intros; apply Ht; lia).
        unfold Rdiv. rewrite Rinv_r by (apply not_0_INR; lia). rewrite S_INR. reflexivity. }
      unfold Rdiv. rewrite Rinv_r by (apply not_0_INR; lia). rewrite S_INR. reflexivity.
    + rewrite IH by (try lia; intros; apply Hf; lia). rewrite Hf by lia. lra.
Qed.

Lemma map_lemma norel cutoff y s : length y = length s -> Forall (fun v => 0 <= v) y ->
  let K := retrieved cutoff (length s) in
  let rel i := Rltb 0 (lab argsort y s i) in
  let nrel := num_of (fun i => Rltb 0 (nth i y 0)) (length y) in
  (num_of rel K = 0%nat -> eval_per_query argsort (MAP norel cutoff) y s = Ok norel) /\
  ((0 < num_of rel K)%nat ->
    exists v, eval_per_query argsort (MAP norel cutoff) y s = Ok v /\
      v = Rsum (fun i => if rel i then INR (num_of rel (S i)) / INR (S i) else 0) K / INR (Nat.min K nrel) /\
      0 <= v <= 1 /\
      (v = 1 <-> forall i, (i < Nat.min K nrel)%nat -> rel i = true)).
Proof.
  intros HL Hy K rel nrel. rewrite eval_top by auto. cbn [cutoff_of top_value]. fold K.
  rewrite (map_fold _ K) by apply K_le.
  change (num_of _ K) with (num_of rel K). change (ap_sum _ K) with (ap_sum rel K).
  assert (Ez : count (fun v : RE => negb (neqb v nzero)) y = nrel).
  { unfold nrel. rewrite (count_all _ y 0). apply num_of_ext. intros i Hi.
    rewrite Forall_forall in Hy. specialize (Hy (nth i y 0) (nth_In _ _ Hi)).
    change (neqb (nth i y 0) (nzero : RE)) with (Reqb (nth i y 0) 0).
    destruct (Reqb _ 0) eqn:E; cbn; [apply Reqb_true in E; symmetry; apply Rltb_false; rlra|].
    apply Reqb_false in E. symmetry. apply Rltb_true. rlra. }
  rewrite Ez. assert (Lk : length (firstn K (ranked argsort y s)) = K) by (apply firstn_retrieved_length; auto).
  rewrite Lk.
  assert (Hle : (num_of rel K <= Nat.min K nrel)%nat).
  { apply Nat.min_glb; [apply num_of_le|]. unfold nrel. rewrite <- (num_of_ranked (Rltb 0 : RE -> bool) y s) by auto.
    apply num_of_mono. apply retrieved_bound. }
  split.
  - intros ->. reflexivity.
  - intros Hpos. destruct (Nat.ltb_spec 0 (num_of rel K)); [|lia].
    destruct (Nat.eqb_spec (Nat.min K nrel) 0); [lia|]. eexists. split; [reflexivity|].
    rewrite nofnat_R. split; [reflexivity|].
    set (M := Nat.min K nrel) in *.
    pose proof (ap_sum_le rel K) as [A0 A1]. apply le_INR in Hle as HleR.
    assert (MP : 0 < INR M) by (apply INR_pos; lia).
    assert (Ib : ap_sum rel K / INR M <= 1).
    { apply Rmult_le_reg_r with (INR M); auto. unfold Rdiv. rewrite Rmult_assoc, Rinv_l by lra. lra. }
    split.
    { split; auto. change (0 <= ap_sum rel K / INR M). apply Rmult_le_pos; auto. left. apply Rinv_0_lt_compat; auto. }
    change (ap_sum rel K / INR M = 1 <-> (forall i, (i < M)%nat -> rel i = true)).
    split.
    + intros E. assert (E' : ap_sum rel K = INR M).
      { apply Rmult_eq_reg_r with (/ INR M); [|apply Rinv_neq_0_compat; lra]. rewrite Rinv_r by lra. exact E. }
      assert (E2 : INR (num_of rel K) = INR M) by lra. apply INR_eq in E2.
      rewrite <- E2. apply ap_sum_eq. rewrite E2. auto.
    + intros Ht. assert (MK : (M <= K)%nat) by lia.
      assert (E2 : num_of rel K = M).
      { assert (M <= num_of rel K)%nat; [|lia]. rewrite <- (num_of_all rel M Ht). apply num_of_mono. auto. }
      rewrite (ap_sum_perfect rel M K MK Ht).
      * unfold Rdiv. apply Rinv_r. lra.
      * apply num_of_prefix_true; auto.
Qed.
End M.
