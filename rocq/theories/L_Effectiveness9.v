(** Proofs about rank_confusion_matrix (C56), continued. *)
From Coq Require Import List ZArith Bool Lia Arith Reals Lra Sorted Permutation.
From Verif Require L_Svmlight.
From Verif Require Import Base Num Lists M_Dataset M_NDCG S_Dataset L_Dataset L_Dataset2 L_Query M_Ensemble S_Ensemble L_Ensemble L_Ensemble2 L_Ensemble3 L_Topology3
  M_Effectiveness S_Effectiveness L_Effectiveness L_Effectiveness2 L_Effectiveness3 L_Effectiveness4 L_Effectiveness5 L_Effectiveness6 L_Effectiveness7 L_Effectiveness8.
Import ListNotations.
Local Open Scope Z_scope.

Lemma Reqb_refl x : Reqb x x = true.
Proof. apply Reqb_true. reflexivity. Qed.
Lemma Reqb_INR a b : Reqb (INR a) (INR b) = (a =? b)%nat.
Proof.
  destruct (Nat.eqb_spec a b) as [->|Hne]; [apply Reqb_refl|]. destruct (Reqb (INR a) (INR b)) eqn:E; [|reflexivity]. apply Reqb_true, INR_eq in E. contradiction.
Qed.
Lemma number_le {A} (p q : A -> bool) l : (forall x, In x l -> p x = true -> q x = true) -> number_of p l <= number_of q l.
Proof.
  unfold number_of. induction l as [|x l IH]; intros H; cbn [filter]; [lia|]. specialize (IH (fun z Hz => H z (or_intror Hz))). pose proof (H x (or_introl eq_refl)) as Hx.
  destruct (p x); [rewrite (Hx eq_refl); cbn [length]; lia|]. destruct (q x); cbn [length]; lia.
Qed.
Lemma number_all {A} (p : A -> bool) l : 0 <= number_of p l <= Z.of_nat (length l).
Proof. unfold number_of. induction l as [|x l IH]; cbn [filter]; [cbn [length]; lia|]. destruct (p x); cbn [length]; lia. Qed.
Lemma number_ext {A} (p q : A -> bool) l : (forall x, In x l -> p x = q x) -> number_of p l = number_of q l.
Proof. intros H. unfold number_of. rewrite (filter_ext_in p q l H). reflexivity. Qed.
Lemma number_add {A} (p q r : A -> bool) l : (forall x, In x l -> r x = p x || q x) -> (forall x, In x l -> p x = true -> q x = true -> False) -> number_of p l + number_of q l = number_of r l.
Proof.
  unfold number_of. induction l as [|x l IH]; intros H1 H2; cbn [filter]; [reflexivity|].
  specialize (IH (fun z Hz => H1 z (or_intror Hz)) (fun z Hz => H2 z (or_intror Hz))). rewrite (H1 x (or_introl eq_refl)). pose proof (H2 x (or_introl eq_refl)) as Hx.
  destruct (p x), (q x); cbn [orb length]; try (destruct (Hx eq_refl eq_refl)); lia.
Qed.
Lemma sorted_ext l l' : StronglySorted Rlt l -> StronglySorted Rlt l' -> (forall x, In x l <-> In x l') -> l = l'.
Proof.
  intros H. revert l'. induction H as [|a l Hl IH Ha]; intros l' H' Heq.
  - destruct l' as [|b l']; [reflexivity|]. destruct (proj2 (Heq b) (or_introl eq_refl)).
  - destruct H' as [|b l' Hl' Hb]; [destruct (proj1 (Heq a) (or_introl eq_refl))|]. rewrite Forall_forall in Ha, Hb.
    assert (a = b). { destruct (proj1 (Heq a) (or_introl eq_refl)) as [E|Hin]; [congruence|]. destruct (proj2 (Heq b) (or_introl eq_refl)) as [E|Hin']; [congruence|]. specialize (Hb a Hin). specialize (Ha b Hin'). lra. }
    subst b. f_equal. apply IH; [exact Hl'|]. intros x. split; intros Hx.
    + destruct (proj1 (Heq x) (or_intror Hx)) as [<-|Hin]; [specialize (Ha a Hx); lra|exact Hin].
    + destruct (proj2 (Heq x) (or_intror Hx)) as [<-|Hin]; [specialize (Hb a Hx); lra|exact Hin].
Qed.
Lemma increasing_sorted l : increasing l -> StronglySorted Rlt l.
Proof.
  induction l as [|a l IH]; intros H; constructor.
  - apply IH. intros i j u v Hij Hu Hv. apply (H (S i) (S j) u v); [lia|exact Hu|exact Hv].
  - rewrite Forall_forall. intros x Hx. destruct (In_nth_error _ _ Hx) as [k Hk]. apply (H 0%nat (S k) a x); [lia|reflexivity|exact Hk].
Qed.
Lemma labels_are (ds : list (obj (N:=RE))) L labels : rel_labels (N:=RE) ds = Ok labels -> integer_labels ds L -> labels = map INR (seq 0 L).
Proof.
  intros E HL. destruct (rel_labels_ok ds labels E) as [H1 [H2 _]]. apply sorted_ext.
  - apply increasing_sorted. exact H1.
  - assert (G : forall n k, StronglySorted Rlt (map INR (seq k n))).
    { induction n as [|n IH]; intros k; cbn [seq map]; constructor; [apply IH|]. rewrite Forall_forall. intros x Hx. apply in_map_iff in Hx. destruct Hx as [j [<- Hj]]. apply in_seq in Hj. apply lt_INR. lia. }
    apply G.
  - intros x. rewrite H2, (HL x), in_map_iff. split.
    + intros [k [Hk ->]]. exists k. split; [reflexivity|apply in_seq; lia].
    + intros [k [<- Hk]]. apply in_seq in Hk. exists k. split; [lia|reflexivity].
Qed.

Section Matrix.
Variable (to_int : RE -> Z) (L : nat).
Hypothesis to_int_ok : forall k, (k < L)%nat -> to_int (INR k) = Z.of_nat k.
Variable (nf : nat) (X : list (list RE)) (y0 : list RE) (ids : list Z) (d : dataset RE) (s : list R) (skip : bool).
Hypothesis B : built nf X y0 ids d.
Hypothesis Hlab : forall x, In x (ds_y d) -> exists k, (k < L)%nat /\ x = INR k.
Hypothesis Hsc : length s = length (ds_y d).
Let lab (i : nat) : nat := Z.to_nat (to_int (nth i (ds_y d) 0%R)).
Let sc (i : nat) : R := nth i s 0%R.
Let tgt (p : nat * nat) : option (nat * nat) :=
  if skip && (lab (fst p) =? lab (snd p))%nat then None
  else Some (if Rltb (sc (fst p)) (sc (snd p)) then (lab (fst p), lab (snd p)) else (lab (snd p), lab (fst p))).

Lemma y_length : length (ds_y d) = length ids.
Proof. destruct B as (E & _ & _ & H). destruct (ds_init_inv _ _ _ _ H) as [_ Ed]. rewrite Ed. cbn [ds_y]. exact E. Qed.
Lemma lab_ok i : (i < length ids)%nat -> nth_error (ds_y d) i = Some (INR (lab i)) /\ (lab i < L)%nat.
Proof.
  intros Hi. destruct (nth_error (ds_y d) i) as [x|] eqn:Ex; [|apply nth_error_None in Ex; rewrite y_length in Ex; lia].
  destruct (Hlab x (nth_error_In _ _ Ex)) as [k [Hk ->]]. unfold lab. rewrite (nth_error_nth (A:=RE) _ _ 0%R Ex), (to_int_ok k Hk), Nat2Z.id. split; [reflexivity|exact Hk].
Qed.
Lemma sc_ok i : (i < length ids)%nat -> nth_error s i = Some (sc i).
Proof. intros Hi. unfold sc. apply nth_error_nth'. rewrite Hsc, y_length. exact Hi. Qed.
Lemma in_range i j : In (i, j) (ordered_pairs ids) -> (i < length ids)%nat /\ (j < length ids)%nat.
Proof. intros H. apply in_ordered in H. destruct H as [q [H1 H2]]. split; apply nth_error_Some; congruence. Qed.
Lemma unordered_ordered p : In p (unordered_pairs ids) -> In p (ordered_pairs ids).
Proof. unfold unordered_pairs. intros H. apply filter_In in H. apply H. Qed.
Lemma tgt_bound p u v : In p (unordered_pairs ids) -> tgt p = Some (u, v) -> (u < L)%nat /\ (v < L)%nat.
Proof.
  destruct p as [i j]. intros Hp E. destruct (in_range i j (unordered_ordered _ Hp)) as [Hi Hj]. destruct (lab_ok i Hi) as [_ H1], (lab_ok j Hj) as [_ H2]. unfold tgt in E. cbn [fst snd] in E.
  destruct (skip && (lab i =? lab j)%nat); [discriminate|]. destruct (Rltb (sc i) (sc j)); injection E as <- <-; split; assumption.
Qed.
Lemma step_ok p m : In p (unordered_pairs ids) ->
  compare_pair (N:=RE) to_int d s skip m (toZ2 p) = match tgt p with Some (u, v) => increment m (Z.of_nat u) (Z.of_nat v) | None => Ok m end.
Proof.
  destruct p as [i j]. intros Hp. destruct (in_range i j (unordered_ordered _ Hp)) as [Hi Hj]. destruct (lab_ok i Hi) as [Hyi Hi'], (lab_ok j Hj) as [Hyj Hj'].
  unfold compare_pair, toZ2. cbn [fst snd]. rewrite !py_get_nat, Hyi, Hyj. cbn [of_option bind].
  change (neqb (n:=RE) (INR (lab i)) (INR (lab j))) with (Reqb (INR (lab i)) (INR (lab j))). rewrite Reqb_INR. unfold tgt. cbn [fst snd]. destruct (skip && (lab i =? lab j)%nat); [reflexivity|].
  rewrite (to_int_ok _ Hi'), (to_int_ok _ Hj').
  pose proof (sc_ok i Hi) as Ei. pose proof (sc_ok j Hj) as Ej. revert Ei Ej. generalize (sc i) (sc j). intros u v Ei Ej.
  refine (eq_trans (f_equal (fun z => bind (of_option IndexError z) _) Ei) _). cbn [of_option bind]. refine (eq_trans (f_equal (fun z => bind (of_option IndexError z) _) Ej) _). cbn [of_option bind].
  change (nltb (n:=RE) u v) with (Rltb u v). destruct (Rltb u v); reflexivity.
Qed.
Lemma matrix_ok : foldM (compare_pair (N:=RE) to_int d s skip) (pairs_of d) (repeat (repeat 0 L) L)
  = Ok (mat L (fun a b => i32 (tally tgt (unordered_pairs ids) a b))).
Proof.
  destruct (pairs_of_perm _ _ _ _ _ B) as [P [-> HP]]. rewrite mat_zero. rewrite (mat_ext L _ (fun a b => i32 ((fun _ _ => 0) a b))) by reflexivity.
  rewrite (count_pairs L tgt).
  - f_equal. apply mat_ext. intros a b _ _. cbv beta. rewrite Z.add_0_l. rewrite (tally_perm tgt _ _ a b HP). reflexivity.
  - intros p u v Hp. apply tgt_bound. apply (Permutation_in p (Permutation_sym HP)). exact Hp.
  - intros p m Hp. apply step_ok. apply (Permutation_in p (Permutation_sym HP)). exact Hp.
Qed.
Lemma has_label_ok a i : (i < length ids)%nat -> has_label (ds_y d) a i = (lab i =? a)%nat.
Proof. intros Hi. unfold has_label. destruct (lab_ok i Hi) as [E _]. change (@nth_error R (ds_y d) i = Some (INR (lab i))) in E. rewrite E. apply Reqb_INR. Qed.
Lemma same_label_ok i j : (i < length ids)%nat -> (j < length ids)%nat -> same_label (ds_y d) i j = (lab i =? lab j)%nat.
Proof. intros Hi Hj. unfold same_label. destruct (lab_ok i Hi) as [E _], (lab_ok j Hj) as [E' _].
  change (@nth_error R (ds_y d) i = Some (INR (lab i))) in E. change (@nth_error R (ds_y d) j = Some (INR (lab j))) in E'. rewrite E, E'. apply Reqb_INR. Qed.
Lemma ranked_ok i j : (i < length ids)%nat -> (j < length ids)%nat -> ranked_below s i j = Rltb (sc i) (sc j) || (Reqb (sc i) (sc j) && (j <? i)%nat).
Proof. intros Hi Hj. unfold ranked_below. rewrite (sc_ok i Hi), (sc_ok j Hj). reflexivity. Qed.

Let entry := confusion_entry ids (ds_y d) s skip.
Lemma tally_entry a b : tally tgt (unordered_pairs ids) a b = entry a b.
Proof.
  unfold entry, confusion_entry, tally. destruct (Nat.eqb_spec a b) as [<-|Hne].
  - destruct skip eqn:Esk.
    + rewrite (number_ext _ (fun _ => false)).
      * unfold number_of. replace (filter (fun _ : nat * nat => false) (unordered_pairs ids)) with (@nil (nat * nat)); [reflexivity|]. induction (unordered_pairs ids); [reflexivity|assumption].
      * intros [i j] Hp. unfold hits, tgt. cbn [fst snd]. rewrite ?Esk. cbn [andb]. destruct (Nat.eqb_spec (lab i) (lab j)) as [|Hd]; [reflexivity|].
        destruct (Rltb (sc i) (sc j)); destruct (Nat.eqb_spec (lab i) a), (Nat.eqb_spec (lab j) a); cbn [andb]; try reflexivity; congruence.
    + apply number_ext. intros [i j] Hp. destruct (in_range i j (unordered_ordered _ Hp)) as [Hi Hj]. unfold hits, tgt. cbn [fst snd]. rewrite ?Esk. cbn [andb]. rewrite (has_label_ok a i Hi), (has_label_ok a j Hj).
      destruct (Rltb (sc i) (sc j)); [reflexivity|apply andb_comm].
  - set (flip := fun p : nat * nat => if Rltb (sc (fst p)) (sc (snd p)) then p else (snd p, fst p)). unfold number_of. f_equal.
    rewrite <- (map_length flip). apply Permutation_length, NoDup_Permutation.
    + apply NoDup_local; [|apply NoDup_filter, NoDup_unordered]. intros [i j] [i' j'] H1 H2 E. apply filter_In in H1, H2. destruct H1 as [H1 _], H2 as [H2 _]. apply in_unordered in H1, H2.
      unfold flip in E. cbn [fst snd] in E. destruct (Rltb (sc i) (sc j)) eqn:E1, (Rltb (sc i') (sc j')) eqn:E2; try congruence.
      * injection E as -> ->. assert (i' = j') by lia. subst j'. apply Rltb_true in E1. lra.
      * injection E as -> ->. assert (i' = j') by lia. subst j'. apply Rltb_true in E2. lra.
    + apply NoDup_filter, NoDup_ordered.
    + intros [u v]. rewrite in_map_iff, filter_In. cbn [fst snd]. split.
      * intros [[i j] [E Hp]]. apply filter_In in Hp. destruct Hp as [Hp Hh]. pose proof (unordered_ordered _ Hp) as Ho. destruct (in_range i j Ho) as [Hi Hj].
        apply in_unordered in Hp. destruct Hp as [Hle [q [Hqi Hqj]]].
        unfold hits, tgt in Hh. cbn [fst snd] in Hh. destruct (skip && (lab i =? lab j)%nat); [discriminate|]. unfold flip in E. cbn [fst snd] in E. destruct (Rltb (sc i) (sc j)) eqn:E1; injection E as <- <-.
        -- split; [exact Ho|]. rewrite (has_label_ok a i Hi), (has_label_ok b j Hj), Hh, (ranked_ok i j Hi Hj), E1. reflexivity.
        -- split; [apply in_ordered; exists q; auto|]. rewrite (has_label_ok a j Hj), (has_label_ok b i Hi), Hh, (ranked_ok j i Hj Hi). cbn [andb].
           assert (i <> j) by (intros ->; apply andb_true_iff in Hh; destruct Hh as [G1 G2]; apply Nat.eqb_eq in G1, G2; congruence).
           apply Rltb_false in E1. destruct (Rltb (sc j) (sc i)) eqn:E2; [reflexivity|]. apply Rltb_false in E2. cbn [orb].
           replace (sc j) with (sc i) by lra. rewrite Reqb_refl. cbn [andb]. apply Nat.ltb_lt. lia.
      * intros [Ho Hh]. destruct (in_range u v Ho) as [Hu Hv]. rewrite (has_label_ok a u Hu), (has_label_ok b v Hv), (ranked_ok u v Hu Hv) in Hh.
        apply andb_true_iff in Hh. destruct Hh as [Hh Hr]. apply andb_true_iff in Hh. destruct Hh as [Ha Hb]. apply Nat.eqb_eq in Ha, Hb.
        apply in_ordered in Ho. destruct Ho as [q [Hqu Hqv]]. destruct (Nat.le_gt_cases u v) as [Hle|Hgt].
        -- assert (E1 : Rltb (sc u) (sc v) = true). { destruct (Rltb (sc u) (sc v)); [reflexivity|]. cbn [orb] in Hr. apply andb_true_iff in Hr. destruct Hr as [_ Hr]. apply Nat.ltb_lt in Hr. lia. }
           exists (u, v). split; [unfold flip; cbn [fst snd]; rewrite E1; reflexivity|]. apply filter_In. split; [apply in_unordered; split; [exact Hle|exists q; auto]|].
           unfold hits, tgt. cbn [fst snd]. rewrite Ha, Hb. destruct (Nat.eqb_spec a b); [congruence|]. rewrite andb_false_r, E1, !Nat.eqb_refl. reflexivity.
        -- assert (E1 : Rltb (sc v) (sc u) = false).
           { apply Rltb_false. destruct (Rltb (sc u) (sc v)) eqn:E2; [apply Rltb_true in E2; lra|]. cbn [orb] in Hr. apply andb_true_iff in Hr. destruct Hr as [Hr _]. apply Reqb_true in Hr. lra. }
           exists (v, u). split; [unfold flip; cbn [fst snd]; rewrite E1; reflexivity|]. apply filter_In. split; [apply in_unordered; split; [lia|exists q; auto]|].
           unfold hits, tgt. cbn [fst snd]. rewrite Ha, Hb. destruct (Nat.eqb_spec b a); [congruence|]. rewrite andb_false_r, E1, !Nat.eqb_refl. reflexivity.
Qed.
Theorem matrix_entries : exists M, foldM (compare_pair (N:=RE) to_int d s skip) (pairs_of d) (repeat (repeat 0 L) L) = Ok M /\ square L M /\
  (forall a b, (a < L)%nat -> (b < L)%nat -> at2 M a b = Some (i32 (entry a b))) /\
  (Z.of_nat (length (unordered_pairs ids)) < 2 ^ 31 ->
     matrix_total M = number_of (fun p => negb (skip && same_label (ds_y d) (fst p) (snd p))) (unordered_pairs ids) /\
     forall a b, (a < L)%nat -> (b < L)%nat -> at2 M a b = Some (entry a b) /\
       (a <> b -> entry a b + entry b a =
         number_of (fun p => has_label (ds_y d) a (fst p) && has_label (ds_y d) b (snd p) || has_label (ds_y d) b (fst p) && has_label (ds_y d) a (snd p)) (unordered_pairs ids))).
Proof.
  eexists. split; [apply matrix_ok|]. split; [apply mat_square|]. split; [intros a b Ha Hb; rewrite mat_at by assumption; rewrite tally_entry; reflexivity|].
  intros Hbig. assert (Hsmall : forall a b, i32 (tally tgt (unordered_pairs ids) a b) = tally tgt (unordered_pairs ids) a b).
  { intros a b. apply i32_id. pose proof (number_all (hits tgt a b) (unordered_pairs ids)). unfold tally. lia. }
  split; [|intros a b Ha Hb; split].
  - rewrite (mat_ext L _ (tally tgt (unordered_pairs ids))) by (intros; apply Hsmall). rewrite tally_total by (intros p u v; apply tgt_bound).
    apply number_ext. intros [i j] Hp. destruct (in_range i j (unordered_ordered _ Hp)) as [Hi Hj]. unfold tgt. cbn [fst snd]. rewrite (same_label_ok i j Hi Hj). destruct (skip && (lab i =? lab j)%nat); reflexivity.
  - rewrite mat_at, Hsmall, tally_entry by assumption. reflexivity.
  - intros Hne. rewrite <- !tally_entry. apply number_add.
    + intros [i j] Hp. destruct (in_range i j (unordered_ordered _ Hp)) as [Hi Hj]. cbn [fst snd]. rewrite (has_label_ok a i Hi), (has_label_ok b j Hj), (has_label_ok b i Hi), (has_label_ok a j Hj).
      unfold hits, tgt. cbn [fst snd]. destruct (Nat.eqb_spec (lab i) (lab j)) as [E|E].
      * destruct (Nat.eqb_spec (lab i) a), (Nat.eqb_spec (lab j) b), (Nat.eqb_spec (lab i) b), (Nat.eqb_spec (lab j) a); try congruence; destruct skip; cbn [andb orb]; try reflexivity; destruct (Rltb (sc i) (sc j));
          repeat match goal with |- context [Nat.eqb ?x ?z] => destruct (Nat.eqb_spec x z) end; try congruence; reflexivity.
      * rewrite andb_false_r. destruct (Rltb (sc i) (sc j)); [reflexivity|]. rewrite orb_comm. f_equal; apply andb_comm.
    + intros [i j] Hp H1 H2. unfold hits in H1, H2. destruct (tgt (i, j)) as [[u v]|]; [|discriminate]. apply andb_true_iff in H1, H2. destruct H1 as [H1 _], H2 as [H2 _]. apply Nat.eqb_eq in H1, H2. congruence.
Qed.
Theorem entry_no_ties a b : a <> b -> no_ties ids s ->
  entry a b = number_of (fun p => has_label (ds_y d) a (fst p) && has_label (ds_y d) b (snd p) && scored_below s (fst p) (snd p)) (ordered_pairs ids).
Proof.
  intros Hne Hnt. unfold entry, confusion_entry. destruct (Nat.eqb_spec a b); [congruence|]. apply number_ext. intros [i j] Hp. destruct (in_range i j Hp) as [Hi Hj]. cbn [fst snd]. f_equal.
  unfold ranked_below, scored_below. rewrite (sc_ok i Hi), (sc_ok j Hj). destruct (Rltb (sc i) (sc j)); [reflexivity|]. cbn [orb]. destruct (Nat.ltb_spec j i) as [Hlt|]; [|apply andb_false_r]. rewrite andb_true_r.
  destruct (Reqb (sc i) (sc j)) eqn:E; [|reflexivity]. exfalso. apply Reqb_true in E. apply (Hnt j i (sc j) (sc i) Hlt).
  - apply in_ordered in Hp. destruct Hp as [q [H1 H2]]. unfold same_query. rewrite H1, H2. apply Z.eqb_refl.
  - apply sc_ok. exact Hj.
  - apply sc_ok. exact Hi.
  - congruence.
Qed.
End Matrix.

Section Real.
Variable (rowsum : list RE -> RE) (digest : list (list RE) -> list RE -> list Z -> Z).
Hypothesis rowsum_exact : forall l, rowsum l = Rtotal l.
Variable (st : list (model RE)) (sh : list shape) (ds : list (obj (N:=RE))).
Hypothesis Hr : ready digest st sh ds.
Variable (to_int : RE -> Z) (L : nat).
Hypothesis to_int_ok : forall k, (k < L)%nat -> to_int (INR k) = Z.of_nat k.
Hypothesis HL : integer_labels ds L.

Lemma confusion_agrees ms skip cache labels : rel_labels (N:=RE) ds = Ok labels ->
  match mapM (fun o => mapM (fun i => do a <- alone (N:=RE) rowsum digest st i o false; do y <- y_pred a;
                foldM (compare_pair (N:=RE) to_int (snd o) y skip) (pairs_of (snd o)) (repeat (repeat 0 (length labels)) (length labels))) ms) ds with
  | Ok bs => exists st', rank_confusion_matrix (N:=RE) rowsum digest to_int st ds ms skip cache = Ok (st', (map to_int labels, bs))
  | Err e => rank_confusion_matrix (N:=RE) rowsum digest to_int st ds ms skip cache = Err e
  end.
Proof.
  intros E. unfold rank_confusion_matrix. rewrite E. cbn [bind]. cbv zeta. pose proof (transparent_cached rowsum digest rowsum_exact st sh ds cache Hr) as T.
  pose proof (per_dataset (N:=RE) rowsum digest st ds cache _ T false (fun i o a => do y <- y_pred a; foldM (compare_pair (N:=RE) to_int (snd o) y skip) (pairs_of (snd o)) (repeat (repeat 0 (length labels)) (length labels)))
    (fun st o i => do r <- score_in (N:=RE) rowsum digest st i o false cache; do y <- y_pred (snd r);
       do m <- foldM (compare_pair (N:=RE) to_int (snd o) y skip) (pairs_of (snd o)) (repeat (repeat 0 (length labels)) (length labels)); Ok (fst r, m)) ms) as P.
  specialize (P ltac:(intros st1 o i _ _; cbv beta; destruct (score_in rowsum digest st1 i o false cache) as [r|]; cbn [bind]; [|reflexivity];
    destruct (y_pred (snd r)) as [y|]; cbn [bind]; reflexivity) st (proj1 T) ds ltac:(intros x Hx; exact Hx)).
  cbv beta in P. match type of P with match ?x with _ => _ end => destruct x as [bs|e] eqn:Eb end.
  - destruct P as [st2 [P _]]. exists st2. rewrite P. reflexivity.
  - rewrite P. reflexivity.
Qed.

Theorem C56_entries_lemma ms skip cache st' labels data :
  rank_confusion_matrix (N:=RE) rowsum digest to_int st ds ms skip cache = Ok (st', (labels, data)) ->
  labels = zrange 0 (Z.of_nat L) /\ length data = length ds /\
  forall x j o i nf X y ids, nth_error ds x = Some o -> nth_error ms j = Some i -> built nf X y ids (snd o) ->
    exists m s M, nth_error st i = Some m /\ nth_error sh i = Some s /\ at2 data x j = Some M /\ square L M /\
      (forall a b, (a < L)%nat -> (b < L)%nat -> at2 M a b = Some (i32 (confusion_entry ids (ds_y (snd o)) (scores_of m s (snd o)) skip a b))) /\
      (Z.of_nat (length (unordered_pairs ids)) < 2 ^ 31 ->
         matrix_total M = number_of (fun p => negb (skip && same_label (ds_y (snd o)) (fst p) (snd p))) (unordered_pairs ids) /\
         forall a b, (a < L)%nat -> (b < L)%nat -> a <> b -> exists u v, at2 M a b = Some u /\ at2 M b a = Some v /\
           u + v = number_of (fun p => has_label (ds_y (snd o)) a (fst p) && has_label (ds_y (snd o)) b (snd p) || has_label (ds_y (snd o)) b (fst p) && has_label (ds_y (snd o)) a (snd p)) (unordered_pairs ids) /\
           (no_ties ids (scores_of m s (snd o)) ->
             u = number_of (fun p => has_label (ds_y (snd o)) a (fst p) && has_label (ds_y (snd o)) b (snd p) && scored_below (scores_of m s (snd o)) (fst p) (snd p)) (ordered_pairs ids))).
Proof.
  intros E. destruct (rel_labels (N:=RE) ds) as [lb|e] eqn:El; [|unfold rank_confusion_matrix in E; rewrite El in E; discriminate].
  pose proof (confusion_agrees ms skip cache lb El) as P. match type of P with match ?x with _ => _ end => destruct x as [bs|e] eqn:Eb end; [|rewrite E in P; discriminate].
  destruct P as [st2 P]. rewrite E in P. injection P as -> -> ->. pose proof (labels_are ds L lb El HL) as Hlb.
  split; [|split; [apply (mapM_length _ _ Eb)|]].
  { rewrite Hlb, map_map. unfold zrange. rewrite Z.sub_0_r, Nat2Z.id. apply map_ext_in. intros k Hk. apply in_seq in Hk. apply to_int_ok. lia. }
  intros x j o i nf X y ids Hx Hj Bd. destruct (mapM_nth _ _ _ _ _ Eb Hx) as [row [Hrow Erow]]. destruct (mapM_nth _ _ _ _ _ Erow Hj) as [M [HM EM]]. pose proof (nth_error_In _ _ Hx) as Ho.
  destruct (alone rowsum digest st i o false) as [a|] eqn:Ea; cbn [bind] in EM; [|discriminate]. destruct (y_pred a) as [yy|] eqn:Ey; cbn [bind] in EM; [|discriminate].
  destruct (alone_ok rowsum digest rowsum_exact st sh ds Hr i o yy Ho ltac:(rewrite Ea; exact Ey)) as [m [s [Hm [Hs ->]]]].
  assert (HLl : length lb = L) by (rewrite Hlb, map_length, seq_length; reflexivity). rewrite HLl in EM.
  assert (Hlab : forall v, In v (ds_y (snd o)) -> exists k, (k < L)%nat /\ v = INR k) by (intros v Hv; apply HL; exists o; auto).
  assert (Hsc : length (scores_of m s (snd o)) = length (ds_y (snd o))). { unfold scores_of, scores_first. rewrite map_length. destruct Hr as [_ [H2 _]]. rewrite Forall_forall in H2. symmetry. apply (H2 o Ho). }
  destruct (matrix_entries to_int L to_int_ok nf X y ids (snd o) (scores_of m s (snd o)) skip Bd Hlab Hsc) as [M' [EM' [Hsq [Hent Htot]]]]. pose proof (eq_trans (eq_sym EM) EM') as E5. injection E5 as ->.
  exists m, s, M'. split; [exact Hm|]. split; [exact Hs|]. split; [exact (at2_ok _ _ _ _ _ Hrow HM)|]. split; [exact Hsq|]. split; [exact Hent|]. intros Hbig. destruct (Htot Hbig) as [Ht1 Ht2]. split; [exact Ht1|].
  intros a0 b Ha Hb Hne. destruct (Ht2 a0 b Ha Hb) as [Ea0 Esum]. destruct (Ht2 b a0 Hb Ha) as [Eb0 _]. eexists. eexists. split; [exact Ea0|]. split; [exact Eb0|]. split; [exact (Esum Hne)|].
  intros Hnt. apply (entry_no_ties nf X y ids (snd o) (scores_of m s (snd o)) skip Bd Hsc a0 b Hne Hnt).
Qed.

Theorem C56_succeeds_lemma ms skip cache : (forall o o', In o ds -> In o' ds -> n_instances (snd o) = n_instances (snd o')) ->
  (forall o, In o ds -> exists nf X y ids, built nf X y ids (snd o)) -> 
  (forall i, In i ms -> exists s, nth_error sh i = Some s /\ forall o, In o ds -> ~ too_wide (ds_nf (snd o)) (fst s)) ->
  exists r, rank_confusion_matrix (N:=RE) rowsum digest to_int st ds ms skip cache = Ok r.
Proof.
  intros Hsame Hbuilt Hms. assert (El : exists lb, rel_labels (N:=RE) ds = Ok lb).
  { unfold rel_labels. destruct ds as [|o r] eqn:Eds; [exists []; reflexivity|]. destruct (forallb (fun o' => (length (ds_y (snd o')) =? length (ds_y (snd o)))%nat) r) eqn:Ef; [eexists; reflexivity|].
    exfalso. assert (G : forallb (fun o' => (length (ds_y (snd o')) =? length (ds_y (snd o)))%nat) r = true) by (apply forallb_forall; intros o' Ho'; apply Nat.eqb_eq; apply (Hsame o' o); [right; exact Ho'|left; reflexivity]). congruence. }
  destruct El as [lb El]. pose proof (confusion_agrees ms skip cache lb El) as P. match type of P with match ?x with _ => _ end => destruct x as [bs|e] eqn:Eb end; [destruct P as [st2 P]; eexists; exact P|exfalso].
  pose proof (labels_are ds L lb El HL) as Hlb. assert (HLl : length lb = L) by (rewrite Hlb, map_length, seq_length; reflexivity). rewrite HLl in Eb.
  apply mapM_err in Eb. destruct Eb as [o [Ho Eb]]. apply mapM_err in Eb. destruct Eb as [i [Hi Eb]]. destruct (Hms i Hi) as [s [Hs Hw]].
  assert (Hm : exists m, nth_error st i = Some m). { destruct (nth_error st i) as [m|] eqn:Em; [exists m; reflexivity|]. exfalso. apply nth_error_None in Em. destruct Hr as [H1 _]. rewrite (L_Svmlight.Forall2_len _ _ _ H1) in Em. apply nth_error_None in Em. congruence. }
  destruct Hm as [m Hm]. destruct (alone_real rowsum digest rowsum_exact st sh ds Hr i o m s Ho Hm Hs) as [[W _]|[_ [E1 _]]]; [exact (Hw o Ho W)|]. rewrite E1 in Eb. cbn [bind y_pred] in Eb.
  destruct (Hbuilt o Ho) as [nf [X [y [ids Bd]]]].
  assert (Hlab : forall v, In v (ds_y (snd o)) -> exists k, (k < L)%nat /\ v = INR k) by (intros v Hv; apply HL; exists o; auto).
  assert (Hsc : length (scores_of m s (snd o)) = length (ds_y (snd o))). { unfold scores_of, scores_first. rewrite map_length. destruct Hr as [_ [H2 _]]. rewrite Forall_forall in H2. symmetry. apply (H2 o Ho). }
  destruct (matrix_entries to_int L to_int_ok nf X y ids (snd o) (scores_of m s (snd o)) skip Bd Hlab Hsc) as [M' [EM' _]]. pose proof (eq_trans (eq_sym Eb) EM'). discriminate.
Qed.
End Real.
