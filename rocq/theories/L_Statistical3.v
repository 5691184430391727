(** The loop over the folds: who is tested when, and where the scores go. *)
From Coq Require Import List ZArith Bool Lia Permutation Sorted.
From Verif Require Import Base Lists Num M_Dataset S_Dataset L_Dataset L_Dataset2 L_Dataset3 L_Query M_Effectiveness M_Statistical S_Statistical L_Statistical2.
Import ListNotations.
Local Open Scope Z_scope.

Lemma put_length {A} (m : list bool) : forall (v t : list A), length (put m v t) = length t.
Proof. induction m as [|[] m IH]; intros [|x v] [|y t]; cbn; auto. Qed.

Lemma put_in {A} T : forall ids (v t : list A), length t = length ids -> length v = length (filter (memz T) ids) ->
  scores_in ids T (put (map (memz T) ids) v t) = v.
Proof.
  unfold scores_in. induction ids as [|i ids IH]; intros v [|y t]; cbn [length map put combine filter]; intros H1 H2; try discriminate; [destruct v; [reflexivity|discriminate]|].
  destruct (memz T i) eqn:E; cbn [length] in H2.
  - destruct v as [|x v]; [discriminate|]. cbn [combine filter fst]. rewrite E. cbn [map snd]. f_equal. apply IH; auto.
  - cbn [combine filter fst]. rewrite E. apply IH; auto.
Qed.

Lemma put_out {A} T T' : (forall q, In q T -> In q T' -> False) -> forall ids (v t : list A), length t = length ids -> length v = length (filter (memz T) ids) ->
  scores_in ids T' (put (map (memz T) ids) v t) = scores_in ids T' t.
Proof.
  intros D. unfold scores_in. induction ids as [|i ids IH]; intros v [|y t]; cbn [length map put combine filter]; intros H1 H2; try discriminate; [destruct v; reflexivity|].
  destruct (memz T i) eqn:E; cbn [length] in H2.
  - destruct v as [|x v]; [discriminate|]. cbn [combine filter fst].
    assert (memz T' i = false) as ->. { destruct (memz T' i) eqn:E'; auto. exfalso. apply memz_In in E. apply memz_In in E'. eauto. }
    apply IH; auto.
  - cbn [combine filter fst]. destruct (memz T' i); cbn [map]; [f_equal|]; apply IH; auto.
Qed.

Lemma filter_map_id {A} (f : A -> bool) l : length (filter (fun b : bool => b) (map f l)) = length (filter f l).
Proof. induction l as [|x l IH]; cbn; auto. destruct (f x); cbn; auto. Qed.

Lemma rows_in_length {V} nf X y ids (d : dataset V) T : built nf X y ids d -> length (rows_in T d) = length (filter (memz T) ids).
Proof.
  intros B. unfold rows_in. pose proof (rows_length _ _ _ _ _ B) as L. rewrite (built_rows _ _ _ _ _ B) in *. unfold rows_of in *. revert L. generalize (combine X y). clear.
  induction ids as [|i ids IH]; intros [|z l]; cbn; try discriminate; auto. intros L. destruct (memz T i); cbn; rewrite IH; auto; lia.
Qed.

Section Loop.
Context {N : Num.num}.
Variable (algo : algorithm N) (d : dataset N).
Variable (nf : nat) (X : list (list N)) (y : list N) (ids : list Z).
Hypothesis B : built nf X y ids d.
Variable (shuffled : list nat) (chunk : Z).
Definition tests (starts : list Z) : list (list Z) := map (fun p => ids_of d (slice p (p + chunk) shuffled)) starts.
Hypothesis Hsh : Forall (fun i => (i < n_queries d)%nat) shuffled.

Lemma slice_Forall p q : Forall (fun i => (i < n_queries d)%nat) (slice p q shuffled).
Proof. rewrite Forall_forall in *. intros i Hi. apply slice_incl in Hi. auto. Qed.

Lemma loop_calls : forall starts made scores, exists calls,
  fst (kfold_loop algo d shuffled chunk starts made scores) = made ++ calls /\ (length calls <= length starts)%nat /\
  forall j c, nth_error calls j = Some c -> exists T, nth_error (tests starts) j = Some T /\ fold_of d T c.
Proof.
  induction starts as [|p starts IH]; intros made scores; cbn [kfold_loop].
  - exists []. rewrite app_nil_r. cbn. repeat split; auto. intros [|j] c; discriminate.
  - destruct (fold_call_ok _ _ _ _ _ (slice p (p + chunk) shuffled) B (slice_Forall _ _)) as (c & -> & F). set (T := ids_of d _) in *.
    assert (One : exists calls, made ++ [c] = made ++ calls /\ (length calls <= S (length starts))%nat /\
       forall j c, nth_error calls j = Some c -> exists T, nth_error (tests (p :: starts)) j = Some T /\ fold_of d T c).
    { exists [c]. cbn. repeat split; [lia|]. intros [|[|j]] c' Hc; cbn in Hc; inversion Hc; subst. eexists; split; [reflexivity|exact F]. }
    destruct (algo made c) as [v|e]; [|exact One]. destruct (assign_mask _ _ _) as [s|e]; [|exact One].
    destruct (IH (made ++ [c]) s) as (calls & -> & L & G). exists (c :: calls). rewrite <- app_assoc. split; [reflexivity|]. cbn [length]. split; [lia|].
    intros [|j] c' Hc; cbn in Hc; [inversion Hc; subst; eexists; split; [reflexivity|exact F]|]. apply G in Hc. exact Hc.
Qed.

Hypothesis A : answers_all algo.
Lemma loop_scores : forall starts made scores, length scores = length ids -> NoDup (concat (tests starts)) -> exists calls scores',
  kfold_loop algo d shuffled chunk starts made scores = (made ++ calls, Ok scores') /\ length calls = length starts /\ length scores' = length ids /\
  (forall j T, nth_error (tests starts) j = Some T -> exists c v, nth_error calls j = Some c /\ algo (made ++ firstn j calls) c = Ok v /\ scores_in ids T scores' = map nf32 v) /\
  (forall T', (forall q, In q (concat (tests starts)) -> In q T' -> False) -> scores_in ids T' scores' = scores_in ids T' scores).
Proof.
  induction starts as [|p starts IH]; intros made scores Ls ND; cbn [kfold_loop].
  - exists [], scores. rewrite app_nil_r. repeat split; auto. intros [|j] T; discriminate.
  - destruct (fold_call_ok _ _ _ _ _ (slice p (p + chunk) shuffled) B (slice_Forall _ _)) as (c & -> & F). cbn [tests map concat] in ND. fold (tests starts) in ND.
    set (T := ids_of d _) in *. destruct (A made c) as (v & Ev & Lv). rewrite Ev.
    destruct F as (Ft & _). rewrite Ft, map_length, (rows_in_length _ _ _ _ _ T B) in Lv.
    assert (EA : assign_mask (map (memz T) ids) (map nf32 v) scores = Ok (put (map (memz T) ids) (map nf32 v) scores)).
    { unfold assign_mask. rewrite filter_map_id, map_length, Lv, Nat.eqb_refl. reflexivity. }
    rewrite EA. set (s1 := put _ _ _).
    assert (L1 : length s1 = length ids) by (unfold s1; rewrite put_length; exact Ls).
    destruct (NoDup_app_inv _ _ ND) as (ND1 & ND2 & DJ).
    destruct (IH (made ++ [c]) s1 L1 ND2) as (calls & s2 & -> & Lc & L2 & G1 & G2).
    exists (c :: calls), s2. rewrite <- app_assoc. split; [reflexivity|]. cbn [length]. split; [lia|]. split; [exact L2|]. split.
    + intros [|j] T' HT; cbn in HT.
      * inversion HT; subst T'. exists c, v. cbn. rewrite app_nil_r. repeat split; auto. fold T.
        rewrite G2; [|intros q Hq1 Hq2; eapply DJ; eauto]. unfold s1. apply put_in; rewrite ?map_length; auto.
      * destruct (G1 j T' HT) as (c' & v' & Hc' & Hv' & Hs'). exists c', v'. cbn [nth_error firstn]. rewrite <- app_assoc in Hv'. auto.
    + intros T' HT. cbn [tests map concat] in HT. fold (tests starts) in HT. fold T in HT.
      rewrite G2; [|intros q Hq1 Hq2; apply (HT q); [apply in_app_iff; auto|auto]]. unfold s1. apply put_out; rewrite ?map_length; auto.
      intros q Hq1 Hq2. apply (HT q); [apply in_app_iff; auto|auto].
Qed.
End Loop.

(** The starts cut the shuffle. *)
Lemma chunks_concat {A} (l : list A) c m : concat (map (fun q => firstn c (skipn (q * c) l)) (seq 0 m)) = firstn (m * c) l.
Proof.
  induction m as [|m IH]; [reflexivity|]. rewrite seq_S, map_app, concat_app, IH. cbn [map concat plus]. rewrite app_nil_r.
  replace (S m * c)%nat with (m * c + c)%nat by lia. generalize (m * c)%nat. clear. intros k. revert k. induction l as [|x l IH]; intros [|k]; cbn; auto; [destruct c; reflexivity|]. f_equal. apply IH.
Qed.

Lemma ceil_bounds n k : 0 < k -> let c := - ((- n) / k) in (c - 1) * k < n /\ n <= c * k.
Proof. intros Hk c. unfold c. pose proof (Z.div_mod (- n) k ltac:(lia)). pose proof (Z.mod_pos_bound (- n) k Hk). nia. Qed.

Lemma starts_eq n c : 0 < c -> py_range 0 n c = Ok (map (fun q => Z.of_nat q * c) (seq 0 (Z.to_nat ((n + c - 1) / c)))).
Proof.
  intros Hc. unfold py_range. destruct (Z.eqb_spec c 0); [lia|]. destruct (Z.ltb_spec 0 c); [|lia]. f_equal. unfold zrange. rewrite map_map. rewrite !Z.sub_0_r.
  apply map_ext. intros q. lia.
Qed.

Section Cut.
Context {N : Num.num}.
Variable (d : dataset N) (nf : nat) (X : list (list N)) (y : list N) (ids : list Z).
Hypothesis B : built nf X y ids d.
Variable (k : Z) (shuffled : list nat).
Hypothesis Hk : 0 < k.
Hypothesis Hn : (0 < n_queries d)%nat.
Hypothesis Hsh : Permutation shuffled (seq 0 (n_queries d)).
Let n := Z.of_nat (n_queries d).
Let chunk := - ((- n) / k).
Let starts := map (fun q => Z.of_nat q * chunk) (seq 0 (Z.to_nat ((n + chunk - 1) / chunk))).

Lemma chunk_pos : 0 < chunk.
Proof. destruct (ceil_bounds n k Hk) as [H1 H2]. fold chunk in H1, H2. assert (0 < n) by (unfold n; lia). nia. Qed.

Lemma shuffled_in : Forall (fun i => (i < n_queries d)%nat) shuffled.
Proof. rewrite Forall_forall. intros i Hi. apply (Permutation_in _ Hsh) in Hi. apply in_seq in Hi. lia. Qed.

Lemma slices_eq q : slice (Z.of_nat q * chunk) (Z.of_nat q * chunk + chunk) shuffled = firstn (Z.to_nat chunk) (skipn (q * Z.to_nat chunk) shuffled).
Proof.
  pose proof chunk_pos as C. replace (Z.of_nat q * chunk) with (Z.of_nat (q * Z.to_nat chunk)) by lia.
  replace (Z.of_nat (q * Z.to_nat chunk) + chunk) with (Z.of_nat (q * Z.to_nat chunk + Z.to_nat chunk)) by lia. rewrite slice_nat. f_equal. lia.
Qed.

Lemma ids_of_all : ids_of d (seq 0 (n_queries d)) = ds_qids d.
Proof.
  apply nth_error_ext'. intros i. unfold ids_of. rewrite nth_error_map', nth_error_seq. unfold n_queries. destruct (Nat.ltb_spec i (length (ds_qids d))) as [H|H]; cbn [option_map].
  - symmetry. apply nth_error_nth'. exact H.
  - symmetry. apply nth_error_None. exact H.
Qed.

Lemma tests_cut : cut_in k d (tests d shuffled chunk starts).
Proof.
  pose proof chunk_pos as C. assert (Np : 0 < n) by (unfold n; lia). assert (LS : length shuffled = n_queries d) by (rewrite (Permutation_length Hsh), seq_length; reflexivity).
  set (m := Z.to_nat ((n + chunk - 1) / chunk)).
  assert (Hm : Z.of_nat m = (n + chunk - 1) / chunk) by (unfold m; apply Z2Nat.id, Z.div_pos; lia).
  pose proof (Z.div_mod (n + chunk - 1) chunk ltac:(lia)) as DM. pose proof (Z.mod_pos_bound (n + chunk - 1) chunk C) as MB. rewrite <- Hm in DM.
  assert (ET : tests d shuffled chunk starts = map (fun q => ids_of d (firstn (Z.to_nat chunk) (skipn (q * Z.to_nat chunk) shuffled))) (seq 0 m)).
  { unfold tests, starts. fold m. rewrite map_map. apply map_ext. intros q. rewrite slices_eq. reflexivity. }
  rewrite ET. destruct (ceil_bounds n k Hk) as [K1 K2]. fold chunk in K1, K2. split; [|split].
  - assert (E : concat (map (fun q => ids_of d (firstn (Z.to_nat chunk) (skipn (q * Z.to_nat chunk) shuffled))) (seq 0 m)) = ids_of d shuffled).
    { unfold ids_of. rewrite <- (map_map (fun q => firstn (Z.to_nat chunk) (skipn (q * Z.to_nat chunk) shuffled))), <- concat_map, chunks_concat. rewrite firstn_all2; [reflexivity|]. rewrite LS. unfold n in *. nia. }
    rewrite E, <- ids_of_all. unfold ids_of. apply Permutation_map. exact Hsh.
  - rewrite map_length, seq_length. rewrite Hm. assert ((n + chunk - 1) / chunk < k + 1); [|lia]. apply Z.div_lt_upper_bound; [lia|]. nia.
  - rewrite Forall_forall. intros T HT. apply in_map_iff in HT. destruct HT as (q & <- & Hq). apply in_seq in Hq. unfold ids_of.
    assert (q * Z.to_nat chunk < n_queries d)%nat by (unfold n in *; nia). split.
    + intros E. apply (f_equal (@length Z)) in E. rewrite map_length, firstn_length, skipn_length, LS in E. cbn [length] in E. lia.
    + rewrite map_length, firstn_length, skipn_length, LS. fold n. nia.
Qed.

Lemma tests_nodup : NoDup (concat (tests d shuffled chunk starts)).
Proof.
  destruct tests_cut as [P _]. eapply Permutation_NoDup; [apply Permutation_sym; exact P|]. destruct B as (_ & _ & _ & H). exact (ds_qids_NoDup _ _ _ _ _ H).
Qed.

Lemma n_instances_built : n_instances d = length ids.
Proof. destruct B as (Hy & _ & _ & H). pose proof (blank_length _ _ _ _ H Hy) as L. unfold blank in L. rewrite repeat_length in L. exact L. Qed.

Lemma kfold_eq nb algo made : kfold_scoring nb algo d k shuffled made
  = let r := kfold_loop algo d shuffled chunk starts made (repeat nzero (n_instances d)) in (fst r, do scores <- snd r; if nb then Ok scores else Err UnboundLocalError).
Proof.
  unfold kfold_scoring. destruct (Z.eqb_spec k 0); [lia|]. fold n. fold chunk. rewrite (starts_eq n chunk chunk_pos). fold starts. destruct (kfold_loop _ _ _ _ _ _ _) as [m r]. reflexivity.
Qed.

Lemma C59_calls_lemma nb algo made : exists Ts calls, fst (kfold_scoring nb algo d k shuffled made) = made ++ calls /\ cut_in k d Ts /\ (length calls <= length Ts)%nat /\
  forall j c, nth_error calls j = Some c -> exists T, nth_error Ts j = Some T /\ fold_of d T c.
Proof.
  rewrite kfold_eq. cbn [fst]. destruct (loop_calls algo d nf X y ids B shuffled chunk shuffled_in starts made (repeat nzero (n_instances d))) as (calls & E & L & G).
  exists (tests d shuffled chunk starts), calls. split; [exact E|]. split; [apply tests_cut|]. split; [unfold tests; rewrite map_length; exact L|exact G].
Qed.

Lemma C59_scores_lemma nb algo made : answers_all algo -> exists Ts calls scores,
  kfold_scoring nb algo d k shuffled made = (made ++ calls, if nb then Ok scores else Err UnboundLocalError) /\ cut_in k d Ts /\ length calls = length Ts /\ length scores = length ids /\
  forall j T, nth_error Ts j = Some T -> exists c v, nth_error calls j = Some c /\ fold_of d T c /\ algo (made ++ firstn j calls) c = Ok v /\ scores_in ids T scores = map nf32 v.
Proof.
  intros A. destruct (loop_scores algo d nf X y ids B shuffled chunk shuffled_in A starts made (repeat nzero (n_instances d))) as (calls & scores & E & L & LS & G & _).
  { rewrite repeat_length. apply n_instances_built. } { apply tests_nodup. }
  destruct (loop_calls algo d nf X y ids B shuffled chunk shuffled_in starts made (repeat nzero (n_instances d))) as (calls' & E' & _ & G').
  rewrite E in E'. cbn [fst] in E'. apply app_inv_head in E'. subst calls'.
  exists (tests d shuffled chunk starts), calls, scores. rewrite kfold_eq, E. cbn [fst snd bind]. split; [destruct nb; reflexivity|]. split; [apply tests_cut|].
  split; [unfold tests; rewrite map_length; exact L|]. split; [exact LS|]. intros j T HT. destruct (G j T HT) as (c & v & Hc & Hv & Hs).
  destruct (G' j c Hc) as (T' & HT' & F). rewrite HT in HT'. inversion HT'; subst T'. exists c, v. auto.
Qed.
End Cut.

(** Outside a notebook no answer is ever given. *)
Lemma C59_outside_lemma {N : Num.num} algo (d : dataset N) k shuffled made : exists e, snd (kfold_scoring false algo d k shuffled made) = Err e.
Proof.
  unfold kfold_scoring. destruct (k =? 0); [eexists; reflexivity|]. destruct (py_range _ _ _); [|eexists; reflexivity].
  destruct (kfold_loop _ _ _ _ _ _ _) as [m [s|e]]; eexists; reflexivity.
Qed.

(** There is something to learn from when there are two folds and two queries. *)
Lemma C59_train_lemma {V} (d : dataset V) k Ts T c : 2 <= k -> (2 <= n_queries d)%nat -> NoDup (ds_qids d) -> cut_in k d Ts -> In T Ts -> fold_of d T c -> c_sizes c <> [].
Proof.
  intros Hk Hn ND (P & _ & F) HT (_ & _ & _ & _ & E). rewrite Forall_forall in F. destruct (F T HT) as [_ L]. rewrite E. intros M. apply map_eq_nil in M. unfold queries_out in M.
  assert (S : incl (ds_qids d) T).
  { intros q Hq. destruct (memz T q) eqn:Em; [apply memz_In; exact Em|]. exfalso. assert (In q []) by (rewrite <- M; apply filter_In; rewrite Em; auto). contradiction. }
  pose proof (NoDup_incl_length ND S) as Len. unfold n_queries in *. nia.
Qed.

Lemma C59_no_query_lemma {N : Num.num} nb algo (d : dataset N) k shuffled made : k <> 0 -> n_queries d = 0%nat -> kfold_scoring nb algo d k shuffled made = (made, Err ValueError).
Proof. intros Hk E. unfold kfold_scoring. rewrite E. destruct (Z.eqb_spec k 0); [contradiction|]. change (- Z.of_nat 0) with 0. rewrite Z.div_0_l by auto. reflexivity. Qed.
