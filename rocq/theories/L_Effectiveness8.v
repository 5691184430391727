(** Proofs about rank_confusion_matrix (C56). *)
From Coq Require Import List ZArith Bool Lia Arith Reals Lra Sorted Permutation.
From Verif Require Import Base Num Lists M_Dataset M_NDCG S_Dataset L_Dataset L_Dataset2 L_Query M_Ensemble S_Ensemble L_Ensemble L_Ensemble2 L_Ensemble3 L_Topology3
  M_Effectiveness S_Effectiveness L_Effectiveness L_Effectiveness2 L_Effectiveness3 L_Effectiveness4 L_Effectiveness5 L_Effectiveness6 L_Effectiveness7.
Import ListNotations.
Local Open Scope Z_scope.

(** ** Lists *)
Lemma filter_length_perm {A} (p : A -> bool) l l' : Permutation l l' -> length (filter p l) = length (filter p l').
Proof.
  induction 1; cbn [filter]; auto; try congruence.
  - destruct (p x); cbn [length]; congruence.
  - destruct (p x), (p y); reflexivity.
Qed.
Lemma NoDup_local {A B} (f : A -> B) l : (forall x y, In x l -> In y l -> f x = f y -> x = y) -> NoDup l -> NoDup (map f l).
Proof.
  intros H. induction 1 as [|a l Ha ND IH]; cbn [map]; constructor.
  - intros Hin. apply in_map_iff in Hin. destruct Hin as [b [Eb Hb]]. apply Ha. rewrite <- (H b a (or_intror Hb) (or_introl eq_refl) Eb). exact Hb.
  - apply IH. intros x y Hx Hy. apply H; right; assumption.
Qed.
Lemma NoDup_app' {A} (l l' : list A) : NoDup l -> NoDup l' -> (forall x, In x l -> In x l' -> False) -> NoDup (l ++ l').
Proof.
  induction 1 as [|a l Ha ND IH]; intros H' Hd; [exact H'|]. cbn [app]. constructor.
  - rewrite in_app_iff. intros [Hin|Hin]; [exact (Ha Hin)|exact (Hd a (or_introl eq_refl) Hin)].
  - apply IH; [exact H'|]. intros x Hx. apply Hd. right. exact Hx.
Qed.
Lemma NoDup_flat {A B} (f : A -> list B) l : NoDup l -> (forall x, In x l -> NoDup (f x)) ->
  (forall x y z, In x l -> In y l -> In z (f x) -> In z (f y) -> x = y) -> NoDup (concat (map f l)).
Proof.
  induction 1 as [|a l Ha ND IH]; intros H1 H2; cbn [map concat]; [constructor|]. apply NoDup_app'.
  - apply H1. left. reflexivity.
  - apply IH; [intros x Hx; apply H1; right; exact Hx|intros x y z Hx Hy; apply H2; right; assumption].
  - intros z Hz Hz'. apply in_concat in Hz'. destruct Hz' as [w [Hw Hz']]. apply in_map_iff in Hw. destruct Hw as [b [<- Hb]].
    apply Ha. rewrite (H2 a b z (or_introl eq_refl) (or_intror Hb) Hz Hz'). exact Hb.
Qed.
Lemma NoDup_prod {A B} (l : list A) (l' : list B) : NoDup l -> NoDup l' -> NoDup (list_prod l l').
Proof.
  intros H H'. induction H as [|a l Ha ND IH]; cbn [list_prod]; [constructor|]. apply NoDup_app'.
  - apply NoDup_local; [|exact H']. intros x y _ _ E. congruence.
  - exact IH.
  - intros [x y] Hz Hz'. apply in_map_iff in Hz. destruct Hz as [b [E _]]. injection E as <- <-. apply in_prod_iff in Hz'. destruct Hz' as [Hz' _]. exact (Ha Hz').
Qed.
Lemma in_zrange a b z : In z (zrange a b) <-> a <= z < b.
Proof.
  unfold zrange. rewrite in_map_iff. split.
  - intros [i [<- Hi]]. apply in_seq in Hi. lia.
  - intros H. exists (Z.to_nat (z - a)). split; [lia|]. apply in_seq. lia.
Qed.
Lemma NoDup_zrange a b : NoDup (zrange a b).
Proof. unfold zrange. apply NoDup_local; [|apply seq_NoDup]. intros x y _ _ H. lia. Qed.

(** ** The pairs that the loops visit *)
Definition toZ2 (p : nat * nat) : Z * Z := (Z.of_nat (fst p), Z.of_nat (snd p)).
Lemma in_unordered ids i j : In (i, j) (unordered_pairs ids) <-> (i <= j)%nat /\ exists q, nth_error ids i = Some q /\ nth_error ids j = Some q.
Proof.
  unfold unordered_pairs, ordered_pairs. rewrite !filter_In, in_prod_iff, !in_seq. cbn [fst snd]. unfold same_query. split.
  - intros [[_ H] Hle]. apply Nat.leb_le in Hle. split; [exact Hle|]. destruct (nth_error ids i) as [a|]; [|discriminate]. destruct (nth_error ids j) as [b|]; [|discriminate]. apply Z.eqb_eq in H. subst b. exists a. auto.
  - intros [Hle [q [Hi Hj]]]. assert (i < length ids)%nat by (apply nth_error_Some; congruence). assert (j < length ids)%nat by (apply nth_error_Some; congruence).
    rewrite Hi, Hj, Z.eqb_refl. split; [split; [lia|reflexivity]|apply Nat.leb_le; exact Hle].
Qed.
Lemma in_ordered ids i j : In (i, j) (ordered_pairs ids) <-> exists q, nth_error ids i = Some q /\ nth_error ids j = Some q.
Proof.
  unfold ordered_pairs. rewrite !filter_In, in_prod_iff, !in_seq. cbn [fst snd]. unfold same_query. split.
  - intros [_ H]. destruct (nth_error ids i) as [a|]; [|discriminate]. destruct (nth_error ids j) as [b|]; [|discriminate]. apply Z.eqb_eq in H. subst b. exists a. auto.
  - intros [q [Hi Hj]]. assert (i < length ids)%nat by (apply nth_error_Some; congruence). assert (j < length ids)%nat by (apply nth_error_Some; congruence).
    rewrite Hi, Hj, Z.eqb_refl. split; [lia|reflexivity].
Qed.
Lemma NoDup_ordered ids : NoDup (ordered_pairs ids).
Proof. apply NoDup_filter, NoDup_prod; apply seq_NoDup. Qed.
Lemma NoDup_unordered ids : NoDup (unordered_pairs ids).
Proof. apply NoDup_filter, NoDup_ordered. Qed.

Section Pairs.
Context {N : Num.num}.
Lemma in_pairs_of nf X y ids (d : dataset N) i j : built nf X y ids d ->
  (In (i, j) (pairs_of d) <-> exists p, In p (unordered_pairs ids) /\ (i, j) = toZ2 p).
Proof.
  intros B. pose proof B as (_ & _ & _ & H). unfold pairs_of. rewrite in_concat. split.
  - intros [l [Hl Hij]]. apply in_map_iff in Hl. destruct Hl as [[q [a b]] [<- Hq]]. cbn [fst snd] in Hij.
    apply in_concat in Hij. destruct Hij as [w [Hw Hij]]. apply in_map_iff in Hw. destruct Hw as [i' [<- Hi']]. apply in_map_iff in Hij. destruct Hij as [j' [E Hj']]. injection E as -> ->.
    apply in_zrange in Hi', Hj'. destruct (In_nth_error _ _ Hq) as [k Hk]. destruct (iter_segment _ _ _ _ _ _ _ _ _ B Hk) as (_ & _ & J).
    exists (Z.to_nat i, Z.to_nat j). split; [|unfold toZ2; cbn [fst snd]; rewrite !Z2Nat.id by lia; reflexivity].
    apply in_unordered. split; [lia|]. exists q. split; apply J; lia.
  - intros [[i' j'] [Hp E]]. injection E as -> ->. apply in_unordered in Hp. destruct Hp as [Hle [q [Hi Hj]]].
    assert (Hq : In q (map fst (query_iterator d))) by (rewrite (iter_qids _ _ _ _ _ H); apply (ds_qids_In _ _ _ _ _ _ H); exact (nth_error_In _ _ Hi)).
    apply in_map_iff in Hq. destruct Hq as [[q' [a b]] [<- Hq]]. cbn [fst] in *. destruct (In_nth_error _ _ Hq) as [k Hk]. destruct (iter_segment _ _ _ _ _ _ _ _ _ B Hk) as (_ & _ & J).
    apply J in Hi, Hj. eexists. split; [apply in_map_iff; exists (q', (a, b)); split; [reflexivity|exact Hq]|]. cbn [fst snd].
    apply in_concat. eexists. split; [apply in_map_iff; exists (Z.of_nat i'); split; [reflexivity|apply in_zrange; lia]|].
    apply in_map_iff. exists (Z.of_nat j'). split; [reflexivity|apply in_zrange; lia].
Qed.
Lemma NoDup_pairs_of nf X y ids (d : dataset N) : built nf X y ids d -> NoDup (pairs_of d).
Proof.
  intros B. pose proof B as (_ & _ & _ & H). unfold pairs_of.
  assert (ND : NoDup (map fst (query_iterator d))) by (rewrite (iter_qids _ _ _ _ _ H); exact (ds_qids_NoDup _ _ _ _ _ H)).
  apply NoDup_flat.
  - exact (NoDup_map_inv _ _ ND).
  - intros [q [a b]] _. cbn [fst snd]. apply NoDup_flat; [apply NoDup_zrange| |].
    + intros i _. apply NoDup_local; [|apply NoDup_zrange]. intros j j' _ _ E. congruence.
    + intros i i' [u v] _ _ H1 H2. apply in_map_iff in H1, H2. destruct H1 as [j1 [E1 _]], H2 as [j2 [E2 _]]. congruence.
  - intros [q [a b]] [q' [a' b']] [i j] H1 H2 H3 H4. cbn [fst snd] in H3, H4.
    apply in_concat in H3. destruct H3 as [w [Hw H3]]. apply in_map_iff in Hw. destruct Hw as [i1 [<- Hi1]]. apply in_map_iff in H3. destruct H3 as [j1 [E1 _]]. injection E1 as -> ->.
    apply in_concat in H4. destruct H4 as [w [Hw H4]]. apply in_map_iff in Hw. destruct Hw as [i2 [<- Hi2]]. apply in_map_iff in H4. destruct H4 as [j2 [E2 _]]. injection E2 as -> ->.
    apply in_zrange in Hi1, Hi2. destruct (In_nth_error _ _ H1) as [k Hk]. destruct (iter_segment _ _ _ _ _ _ _ _ _ B Hk) as (K1 & _ & J1).
    destruct (In_nth_error _ _ H2) as [k' Hk']. destruct (iter_segment _ _ _ _ _ _ _ _ _ B Hk') as (K2 & _ & J2).
    assert (G1 : nth_error ids (Z.to_nat i) = Some q) by (apply J1; lia). assert (G2 : nth_error ids (Z.to_nat i) = Some q') by (apply J2; lia).
    assert (q' = q) by congruence. subst q'. pose proof (ds_qids_NoDup _ _ _ _ _ H) as ND2.
    assert (k = k') by (apply (proj1 (NoDup_nth_error _) ND2); [apply nth_error_Some; congruence|congruence]). subst k'. congruence.
Qed.
Lemma pairs_of_perm nf X y ids (d : dataset N) : built nf X y ids d -> exists P, pairs_of d = map toZ2 P /\ Permutation (unordered_pairs ids) P.
Proof.
  intros B. apply Permutation_map_inv. apply NoDup_Permutation.
  - exact (NoDup_pairs_of _ _ _ _ _ B).
  - apply NoDup_local; [|apply NoDup_unordered]. intros [a b] [a' b'] _ _ E. unfold toZ2 in E. cbn [fst snd] in E. injection E as E1 E2. f_equal; lia.
  - intros [i j]. rewrite (in_pairs_of _ _ _ _ _ i j B), in_map_iff. split; intros [p [H1 H2]]; exists p; auto.
Qed.
End Pairs.

(** ** Counting in a matrix *)
Definition mat (L : nat) (f : nat -> nat -> Z) : list (list Z) := map (fun a => map (f a) (seq 0 L)) (seq 0 L).
Lemma mat_ext L f g : (forall a b, (a < L)%nat -> (b < L)%nat -> f a b = g a b) -> mat L f = mat L g.
Proof. intros H. unfold mat. apply map_ext_in. intros a Ha. apply map_ext_in. intros b Hb. apply in_seq in Ha, Hb. apply H; lia. Qed.
Lemma mat_zero L : repeat (repeat 0 L) L = mat L (fun _ _ => 0).
Proof.
  unfold mat. assert (G : forall A (v : A) n k, repeat v n = map (fun _ => v) (seq k n)). { induction n as [|n IH]; intros k; [reflexivity|]. cbn [repeat seq map]. f_equal. apply IH. }
  rewrite (G _ _ _ 0%nat). apply map_ext. intros _. apply G.
Qed.
Lemma mat_row L f a : (a < L)%nat -> nth_error (mat L f) a = Some (map (f a) (seq 0 L)).
Proof. intros H. unfold mat. rewrite nth_error_map', nth_error_seq. destruct (Nat.ltb_spec a L); [reflexivity|lia]. Qed.
Lemma row_nth L (f : nat -> Z) b : (b < L)%nat -> nth_error (map f (seq 0 L)) b = Some (f b).
Proof. intros H. rewrite nth_error_map', nth_error_seq. destruct (Nat.ltb_spec b L); [reflexivity|lia]. Qed.
Lemma mat_at L f a b : (a < L)%nat -> (b < L)%nat -> at2 (mat L f) a b = Some (f a b).
Proof. intros Ha Hb. unfold at2. rewrite mat_row by exact Ha. apply row_nth. exact Hb. Qed.
Lemma mat_square L f : square L (mat L f).
Proof. split; [unfold mat; rewrite map_length, seq_length; reflexivity|]. intros row Hrow. apply in_map_iff in Hrow. destruct Hrow as [a [<- _]]. rewrite map_length, seq_length. reflexivity. Qed.
Lemma upd_seq {A} L (f : nat -> A) b v : (b < L)%nat -> upd (map f (seq 0 L)) b v = map (fun j => if (j =? b)%nat then v else f j) (seq 0 L).
Proof.
  intros Hb. apply nth_error_ext'. intros j. rewrite Lists.nth_error_upd, !nth_error_map', !nth_error_seq. rewrite ?map_length, ?seq_length.
  repeat (match goal with |- context [Nat.eqb ?x ?y] => destruct (Nat.eqb_spec x y) | |- context [Nat.ltb ?x ?y] => destruct (Nat.ltb_spec x y) end; cbn [option_map Nat.add]); subst; try lia; try reflexivity; try congruence.
Qed.
Lemma py_set_nat {A} (l : list A) k v : (k < length l)%nat -> py_set l (Z.of_nat k) v = Ok (upd l k v).
Proof.
  intros H. unfold py_set. destruct (Z.ltb_spec (Z.of_nat k) 0); [lia|]. cbn [orb]. destruct (Z.ltb_spec (Z.of_nat k) 0); [lia|]. destruct (Z.leb_spec (Z.of_nat (length l)) (Z.of_nat k)); [lia|].
  cbn [orb]. rewrite Nat2Z.id. reflexivity.
Qed.
Lemma increment_mat L f a b : (a < L)%nat -> (b < L)%nat ->
  increment (mat L f) (Z.of_nat a) (Z.of_nat b) = Ok (mat L (fun i j => if (i =? a)%nat && (j =? b)%nat then i32 (f i j + 1) else f i j)).
Proof.
  intros Ha Hb. unfold increment. rewrite py_get_nat, mat_row by exact Ha. cbn [of_option bind]. rewrite py_get_nat, row_nth by exact Hb. cbn [of_option bind].
  rewrite py_set_nat by (rewrite map_length, seq_length; exact Hb). cbn [bind]. rewrite py_set_nat by (unfold mat; rewrite map_length, seq_length; exact Ha). f_equal.
  rewrite upd_seq by exact Hb. unfold mat. rewrite upd_seq by exact Ha. apply map_ext. intros i. destruct (Nat.eqb_spec i a) as [->|]; cbn [andb]; [|reflexivity].
  apply map_ext. intros j. destruct (Nat.eqb_spec j b) as [->|]; reflexivity.
Qed.
Lemma i32_step x : i32 (i32 x + 1) = i32 (x + 1).
Proof.
  unfold i32, wrap_s. cbv zeta. assert (E : (((if x mod 2 ^ 32 <? 2 ^ (32 - 1) then x mod 2 ^ 32 else x mod 2 ^ 32 - 2 ^ 32) + 1) mod 2 ^ 32 = (x + 1) mod 2 ^ 32)%Z); [|rewrite E; reflexivity].
  destruct (x mod 2 ^ 32 <? 2 ^ (32 - 1)).
  - rewrite Zplus_mod_idemp_l. reflexivity.
  - replace (x mod 2 ^ 32 - 2 ^ 32 + 1) with (x mod 2 ^ 32 + 1 + (-1) * 2 ^ 32) by ring. rewrite Z_mod_plus_full, Zplus_mod_idemp_l. reflexivity.
Qed.

(** Adding the pairs one by one; [tgt] says which entry a pair increments. *)
Section Count.
Variable (L : nat) (tgt : nat * nat -> option (nat * nat)).
Definition hits (a b : nat) (p : nat * nat) : bool := match tgt p with Some (u, v) => (u =? a)%nat && (v =? b)%nat | None => false end.
Definition tally (P : list (nat * nat)) (a b : nat) : Z := number_of (hits a b) P.
Lemma count_pairs step P : (forall p u v, In p P -> tgt p = Some (u, v) -> (u < L)%nat /\ (v < L)%nat) ->
  (forall p m, In p P -> step m (toZ2 p) = match tgt p with Some (u, v) => increment m (Z.of_nat u) (Z.of_nat v) | None => Ok m end) ->
  forall g, foldM step (map toZ2 P) (mat L (fun a b => i32 (g a b))) = Ok (mat L (fun a b => i32 (g a b + tally P a b))).
Proof.
  induction P as [|p P IH]; intros Hb Hs g; cbn [map foldM].
  - f_equal. apply mat_ext. intros a b _ _. unfold tally, number_of. cbn [filter length]. f_equal. lia.
  - rewrite (Hs p _ (or_introl eq_refl)). specialize (IH (fun q u v Hq => Hb q u v (or_intror Hq)) (fun q m Hq => Hs q m (or_intror Hq))).
    destruct (tgt p) as [[u v]|] eqn:Et.
    + destruct (Hb p u v (or_introl eq_refl) Et) as [Hu Hv]. rewrite increment_mat by assumption. cbn [bind].
      rewrite (mat_ext L _ (fun a b => i32 (g a b + (if hits a b p then 1 else 0)))).
      * rewrite IH. f_equal. apply mat_ext. intros a b _ _. f_equal. unfold tally, number_of. cbn [filter]. destruct (hits a b p); cbn [length]; lia.
      * intros a b _ _. unfold hits. rewrite Et. rewrite (Nat.eqb_sym a u), (Nat.eqb_sym b v). destruct ((u =? a)%nat && (v =? b)%nat); [apply i32_step|f_equal; lia].
    + cbn [bind]. rewrite IH. f_equal. apply mat_ext. intros a b _ _. f_equal. unfold tally, number_of. cbn [filter]. assert (E0 : hits a b p = false) by (unfold hits; rewrite Et; reflexivity). rewrite E0. reflexivity.
Qed.
Lemma zsum_indicator (l : list nat) v (g : nat -> Z) : NoDup l ->
  fold_right Z.add 0 (map (fun b => (if (v =? b)%nat then 1 else 0) + g b) l) = (if in_dec Nat.eq_dec v l then 1 else 0) + fold_right Z.add 0 (map g l).
Proof.
  induction 1 as [|x l Hx ND IH]; [cbn [map fold_right]; destruct (in_dec Nat.eq_dec v []) as [[]|]; reflexivity|]. cbn [map fold_right]. rewrite IH.
  destruct (Nat.eqb_spec v x) as [->|Hne].
  - destruct (in_dec Nat.eq_dec x (x :: l)) as [|Hn]; [|destruct (Hn (or_introl eq_refl))]. destruct (in_dec Nat.eq_dec x l); [contradiction|]. lia.
  - destruct (in_dec Nat.eq_dec v (x :: l)) as [Hi|Hn], (in_dec Nat.eq_dec v l) as [Hi'|Hn']; try lia.
    + destruct Hi as [->|Hi]; [congruence|contradiction].
    + destruct (Hn (or_intror Hi')).
Qed.
Lemma zsum_zero (l : list nat) : fold_right Z.add 0 (map (fun _ => 0) l) = 0.
Proof. induction l as [|x l IH]; [reflexivity|]. cbn [map fold_right]. rewrite IH. reflexivity. Qed.
Lemma tally_total P : (forall p u v, In p P -> tgt p = Some (u, v) -> (u < L)%nat /\ (v < L)%nat) ->
  matrix_total (mat L (tally P)) = number_of (fun p => match tgt p with Some _ => true | None => false end) P.
Proof.
  unfold matrix_total, mat. rewrite map_map. induction P as [|p P IH]; intros Hb.
  - unfold tally, number_of. cbn [filter length Z.of_nat]. rewrite (map_ext _ (fun _ => 0)) by (intros a; apply zsum_zero). apply zsum_zero.
  - specialize (IH (fun q u v Hq => Hb q u v (or_intror Hq))). unfold number_of at 1. cbn [filter]. destruct (tgt p) as [[u v]|] eqn:Et.
    + destruct (Hb p u v (or_introl eq_refl) Et) as [Hu Hv]. cbn [length]. rewrite Nat2Z.inj_succ. fold (number_of (fun p => match tgt p with Some _ => true | None => false end) P). rewrite <- IH.
      rewrite (map_ext_in _ (fun a => (if (u =? a)%nat then 1 else 0) + fold_right Z.add 0 (map (tally P a) (seq 0 L)))).
      * rewrite zsum_indicator by apply seq_NoDup. destruct (in_dec Nat.eq_dec u (seq 0 L)) as [|Hn]; [lia|destruct Hn; apply in_seq; lia].
      * intros a _. rewrite (map_ext_in _ (fun b => (if (u =? a)%nat && (v =? b)%nat then 1 else 0) + tally P a b)).
        -- destruct (u =? a)%nat; cbn [andb]; [|reflexivity]. rewrite zsum_indicator by apply seq_NoDup. destruct (in_dec Nat.eq_dec v (seq 0 L)) as [|Hn]; [reflexivity|destruct Hn; apply in_seq; lia].
        -- intros b _. unfold tally, number_of. cbn [filter]. assert (E0 : hits a b p = ((u =? a)%nat && (v =? b)%nat)) by (unfold hits; rewrite Et; reflexivity). rewrite E0. destruct ((u =? a)%nat && (v =? b)%nat); cbn [length]; lia.
    + fold (number_of (fun p => match tgt p with Some _ => true | None => false end) P). rewrite <- IH. f_equal. apply map_ext. intros a. f_equal. apply map_ext. intros b.
      unfold tally, number_of. cbn [filter]. assert (E0 : hits a b p = false) by (unfold hits; rewrite Et; reflexivity). rewrite E0. reflexivity.
Qed.
Lemma tally_perm P P' a b : Permutation P P' -> tally P a b = tally P' a b.
Proof. intros H. unfold tally, number_of. f_equal. apply filter_length_perm. exact H. Qed.
End Count.
