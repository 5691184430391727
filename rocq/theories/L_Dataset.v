(** Proofs about M_Dataset. *)
From Coq Require Import List ZArith QArith Qround Lia Bool Permutation Sorted.
From Verif Require Import Base Lists M_Dataset S_Dataset.
Import ListNotations.
Set Implicit Arguments.
Local Open Scope Z_scope.

(** ** First occurrences *)

Definition is_first (ids : list Z) (i : nat) : bool :=
  match nth_error ids i with
  | Some q => negb (existsb (Z.eqb q) (firstn i ids))
  | None => false
  end.

Definition firsts (ids : list Z) : list nat := filter (is_first ids) (seq 0 (length ids)).

Lemma memz_In qs q : memz qs q = true <-> In q qs.
Proof.
  unfold memz. rewrite existsb_exists. split.
  - intros (x & Hx & E). apply Z.eqb_eq in E. subst; auto.
  - intros H. exists q. split; auto. apply Z.eqb_refl.
Qed.

Lemma first_index_spec q ids :
  In q ids -> nth_error ids (first_index q ids) = Some q /\
              ~ In q (firstn (first_index q ids) ids).
Proof.
  induction ids as [|x xs IH]; [intros []|].
  cbn. intros H. destruct (Z.eqb_spec x q).
  - subst; cbn; auto.
  - destruct H as [|H]; [congruence|]. destruct (IH H) as [H1 H2]. cbn.
    split; auto. intros [|]; auto.
Qed.

Lemma first_index_lt q ids : In q ids -> (first_index q ids < length ids)%nat.
Proof. intros H. apply first_index_spec in H. apply nth_error_Some. destruct H; congruence. Qed.

Lemma is_first_iff ids i q :
  nth_error ids i = Some q -> (is_first ids i = true <-> ~ In q (firstn i ids)).
Proof.
  intros H. unfold is_first. rewrite H, negb_true_iff. split.
  - intros E Hin. apply memz_In in Hin. unfold memz in Hin. congruence.
  - intros Hn. destruct (existsb (Z.eqb q) (firstn i ids)) eqn:E; auto.
    exfalso; apply Hn. apply memz_In; auto.
Qed.

Lemma nth_error_In_firstn {A} (l : list A) i j a :
  (i < j)%nat -> nth_error l i = Some a -> In a (firstn j l).
Proof.
  intros Hij H. apply nth_error_In with (n := i).
  rewrite nth_error_firstn. destruct (Nat.ltb_spec i j); [auto|lia].
Qed.

Lemma In_firstn_nth {A} (l : list A) j a :
  In a (firstn j l) -> exists i, (i < j)%nat /\ nth_error l i = Some a.
Proof.
  intros H. apply In_nth_error in H. destruct H as [i Hi].
  rewrite nth_error_firstn in Hi. destruct (Nat.ltb_spec i j); [|discriminate]. eauto.
Qed.

Lemma is_first_first_index ids i q :
  nth_error ids i = Some q -> (is_first ids i = true <-> first_index q ids = i).
Proof.
  intros H. rewrite (is_first_iff _ _ H).
  assert (Hin : In q ids) by (eapply nth_error_In; eauto).
  destruct (first_index_spec _ _ Hin) as [H1 H2].
  split.
  - intros Hn. destruct (Nat.lt_trichotomy (first_index q ids) i) as [L|[E|L]]; auto.
    + exfalso; apply Hn. eapply nth_error_In_firstn; eauto.
    + exfalso; apply H2. eapply nth_error_In_firstn; eauto.
  - intros <-. auto.
Qed.

Lemma firsts_In ids i :
  In i (firsts ids) <-> exists q, nth_error ids i = Some q /\ first_index q ids = i.
Proof.
  unfold firsts. rewrite filter_In, in_seq. split.
  - intros [[_ Hi] Hf]. destruct (nth_error ids i) as [q|] eqn:E.
    + exists q. split; auto. apply (is_first_first_index _ _ E); auto.
    + apply nth_error_None in E. lia.
  - intros (q & Hq & E). split.
    + assert (i < length ids)%nat by (apply nth_error_Some; congruence). lia.
    + apply (is_first_first_index _ _ Hq); auto.
Qed.

Definition first_pairs (ids : list Z) : list (Z * nat) :=
  map (fun i => (nth i ids 0, i)) (firsts ids).

Lemma isort_snd_sorted (l : list (Z * nat)) :
  StronglySorted (fun a b => Nat.leb (snd a) (snd b) = true)
    (isort (fun a b : Z * nat => Nat.leb (snd a) (snd b)) l).
Proof.
  apply isort_sorted.
  - intros x y. rewrite !Nat.leb_le. lia.
  - intros x y z. rewrite !Nat.leb_le. lia.
Qed.

Lemma compact_pairs ids :
  isort (fun a b : Z * nat => Nat.leb (snd a) (snd b)) (np_unique ids) = first_pairs ids.
Proof.
  apply StronglySorted_perm_unique with (R := fun a b => Nat.leb (snd a) (snd b) = true).
  - intros x y Hx Hy H1 H2. apply Nat.leb_le in H1, H2.
    apply (Permutation_in _ (isort_perm _ _)) in Hx.
    apply (Permutation_in _ (isort_perm _ _)) in Hy.
    unfold np_unique in Hx, Hy. apply in_map_iff in Hx, Hy.
    destruct Hx as (a & <- & Ha), Hy as (b & <- & Hb). cbn in *.
    apply (Permutation_in _ (isort_perm _ _)) in Ha, Hb.
    apply nodup_In in Ha, Hb.
    assert (first_index a ids = first_index b ids) as E by lia.
    destruct (first_index_spec _ _ Ha) as [Ha' _], (first_index_spec _ _ Hb) as [Hb' _].
    congruence.
  - apply isort_snd_sorted.
  - unfold first_pairs. eapply StronglySorted_map with (R := lt).
    + intros x y H. cbn. apply Nat.leb_le. lia.
    + apply StronglySorted_filter, StronglySorted_seq.
  - rewrite isort_perm. apply NoDup_Permutation.
    + unfold np_unique. apply NoDup_map_inj.
      * intros x y _ _ H. inversion H; auto.
      * eapply Permutation_NoDup; [symmetry; apply isort_perm|]. apply NoDup_nodup.
    + unfold first_pairs. apply NoDup_map_inj.
      * intros x y _ _ H. inversion H; auto.
      * apply NoDup_filter, seq_NoDup.
    + intros [q i]. unfold np_unique, first_pairs. rewrite !in_map_iff. split.
      * intros (q' & E & H). inversion E; subst.
        apply (Permutation_in _ (isort_perm _ _)) in H. apply nodup_In in H.
        destruct (first_index_spec _ _ H) as [H1 H2].
        exists (first_index q ids). split.
        -- f_equal. apply nth_error_nth with (d := 0) in H1. auto.
        -- apply firsts_In. eauto.
      * intros (i' & E & H). inversion E; subst. apply firsts_In in H.
        destruct H as (q & H1 & H2). exists q. split.
        -- apply nth_error_nth with (d := 0) in H1. rewrite H1. congruence.
        -- apply (Permutation_in _ (Permutation_sym (isort_perm _ _))).
           apply nodup_In. eapply nth_error_In; eauto.
Qed.

Lemma compact_ids_eq ids :
  compact_ids ids = (map (fun i => nth i ids 0) (firsts ids), firsts ids ++ [length ids]).
Proof.
  unfold compact_ids. rewrite compact_pairs. unfold first_pairs.
  rewrite !map_map. cbn. f_equal. f_equal. apply map_id.
Qed.

Section DS.
Context {V : Type}.
Implicit Types (d : dataset V).

Lemma ds_init_inv nf X y ids d :
  ds_init (V:=V) nf X y ids = Ok d ->
  length ids = length X /\
  d = mkDataset X nf y (map (fun i => nth i ids 0) (firsts ids)) (firsts ids ++ [length ids]).
Proof.
  unfold ds_init. destruct (Nat.eqb_spec (length ids) (length X)); cbn [negb]; [|discriminate].
  rewrite compact_ids_eq. intros H; inversion H. auto.
Qed.

Lemma ds_init_ok nf X y ids :
  length ids = length X ->
  ds_init (V:=V) nf X y ids =
  Ok (mkDataset X nf y (map (fun i => nth i ids 0) (firsts ids)) (firsts ids ++ [length ids])).
Proof.
  intros H. unfold ds_init. rewrite H, Nat.eqb_refl. cbn [negb]. rewrite compact_ids_eq. congruence.
Qed.

Lemma firsts_sorted ids : StronglySorted lt (firsts ids).
Proof. apply StronglySorted_filter, StronglySorted_seq. Qed.

Lemma firsts_lt ids i : In i (firsts ids) -> (i < length ids)%nat.
Proof. unfold firsts. rewrite filter_In, in_seq. lia. Qed.

Lemma firsts_head ids : ids <> [] -> exists l, firsts ids = 0%nat :: l.
Proof.
  destruct ids as [|q ids]; [congruence|]. intros _.
  unfold firsts. cbn [length seq filter]. unfold is_first at 1. cbn. eauto.
Qed.

Lemma StronglySorted_snoc {A} (R : A -> A -> Prop) l x :
  StronglySorted R l -> (forall a, In a l -> R a x) -> StronglySorted R (l ++ [x]).
Proof.
  induction 1; cbn; intros Hx.
  - constructor; constructor.
  - constructor; [apply IHStronglySorted; auto|].
    apply Forall_app. split; auto.
Qed.

Lemma offs_sorted ids : StronglySorted lt (firsts ids ++ [length ids]).
Proof. apply StronglySorted_snoc; [apply firsts_sorted|apply firsts_lt]. Qed.

(** Consecutive pairs of a strictly increasing list telescope. *)
Lemma diffs_sum : forall (l : list nat) a,
  StronglySorted lt (a :: l) ->
  list_sum (map (fun p => (snd p - fst p)%nat) (combine (a :: l) l)) = (last (a :: l) 0 - a)%nat.
Proof.
  induction l as [|b l IH]; intros a H.
  - cbn. lia.
  - inversion H; subst. change (combine (a :: b :: l) (b :: l)) with ((a, b) :: combine (b :: l) l).
    cbn [map list_sum fold_right]. cbn [fst snd]. change (fold_right Nat.add 0%nat) with list_sum.
    rewrite IH by auto.
    change (last (a :: b :: l) 0%nat) with (last (b :: l) 0%nat).
    assert (Hab : (a < b)%nat) by (inversion H3; auto).
    assert (b <= last (b :: l) 0)%nat.
    { inversion H2; subst. destruct l as [|c l]; [cbn; lia|].
      rewrite Forall_forall in H5. assert (b < last (b :: c :: l) 0)%nat; [|lia].
      apply H5. change (last (b :: c :: l) 0%nat) with (last (c :: l) 0%nat).
      destruct (exists_last (l := c :: l)) as (l' & x & E); [congruence|].
      rewrite E. rewrite last_last. apply in_app_iff; right; left; auto. }
    lia.
Qed.

Lemma diffs_pos : forall (l : list nat),
  StronglySorted lt l ->
  Forall (fun s => (0 < s)%nat) (map (fun p => (snd p - fst p)%nat) (combine l (tl l))).
Proof.
  induction l as [|a l IH]; intros H; cbn; [constructor|].
  inversion H; subst. destruct l as [|b l]; cbn; constructor.
  - inversion H3; subst; lia.
  - apply IH; auto.
Qed.

Lemma C01_lemma nf X y ids d :
  ids <> [] -> ds_init (V:=V) nf X y ids = Ok d ->
  nth_error (ds_offs d) 0 = Some 0%nat /\
  StronglySorted lt (ds_offs d) /\
  last (ds_offs d) 0%nat = length ids /\
  length (ds_offs d) = S (n_queries d) /\
  NoDup (ds_qids d) /\ (forall q, In q (ds_qids d) <-> In q ids) /\
  length (get_query_sizes d) = n_queries d /\
  Forall (fun s => (0 < s)%nat) (get_query_sizes d) /\
  list_sum (get_query_sizes d) = length ids.
Proof.
  intros Hne H. apply ds_init_inv in H. destruct H as [Hlen ->]. cbn.
  destruct (firsts_head Hne) as [l Hl].
  unfold n_queries, get_query_sizes; cbn [ds_offs ds_qids].
  split. { rewrite Hl. reflexivity. }
  split. { apply offs_sorted. }
  split. { apply last_last. }
  split. { rewrite app_length, map_length. cbn. lia. }
  assert (Hnth : forall i, In i (firsts ids) -> nth_error ids i = Some (nth i ids 0)).
  { intros i Hi. apply firsts_In in Hi. destruct Hi as (q & Hq & _). rewrite Hq.
    f_equal. symmetry. apply nth_error_nth; auto. }
  split.
  { apply NoDup_map_inj; [|apply NoDup_filter, seq_NoDup].
    intros i j Hi Hj E. pose proof (Hnth _ Hi) as Ni. pose proof (Hnth _ Hj) as Nj.
    apply firsts_In in Hi, Hj. destruct Hi as (q & Hq & <-), Hj as (q' & Hq' & <-). congruence. }
  split.
  { intros q. rewrite in_map_iff. split.
    - intros (i & <- & Hi). apply nth_error_In with (n := i). auto.
    - intros Hq. exists (first_index q ids). destruct (first_index_spec _ _ Hq) as [H1 _].
      split; [apply nth_error_nth; auto|]. apply firsts_In. eauto. }
  split.
  { rewrite map_length, combine_length. destruct (firsts ids ++ [length ids]) eqn:E;
      [destruct (firsts ids); discriminate|]. cbn [tl length].
    apply (f_equal (@length nat)) in E. rewrite app_length in E. cbn in E.
    rewrite map_length. lia. }
  split. { apply diffs_pos, offs_sorted. }
  rewrite Hl. cbn [app tl].
  rewrite diffs_sum.
  - change (0%nat :: l ++ [length ids]) with ((0%nat :: l) ++ [length ids]). rewrite last_last. lia.
  - pose proof (offs_sorted ids) as S. rewrite Hl in S. exact S.
Qed.

(** ** Segments *)

Lemma nth_error_combine {A B} (l : list A) (l' : list B) i :
  nth_error (combine l l') i =
  match nth_error l i, nth_error l' i with Some a, Some b => Some (a, b) | _, _ => None end.
Proof.
  revert l' i; induction l as [|x xs IH]; destruct l' as [|y ys], i; cbn; auto.
  destruct (nth_error xs i); auto.
Qed.

Lemma nth_error_tl {A} (l : list A) i : nth_error (tl l) i = nth_error l (S i).
Proof. destruct l; auto. destruct i; auto. Qed.

(** [query_iterator] entry [i]. *)
Lemma query_iterator_nth d i :
  nth_error (query_iterator d) i =
  match nth_error (ds_qids d) i, nth_error (ds_offs d) i, nth_error (ds_offs d) (S i) with
  | Some q, Some s, Some e => Some (q, (s, e)) | _, _, _ => None end.
Proof.
  unfold query_iterator. rewrite !nth_error_combine, nth_error_tl.
  destruct (nth_error (ds_qids d) i); auto.
  destruct (nth_error (ds_offs d) i); auto.
  destruct (nth_error (ds_offs d) (S i)); auto.
Qed.

Lemma assign_range_length s e v arr : length (assign_range s e v arr) = length arr.
Proof. unfold assign_range. rewrite map_length, combine_length, seq_length. lia. Qed.

Lemma assign_range_nth s e v arr j :
  nth_error (assign_range s e v arr) j =
  match nth_error arr j with
  | Some x => Some (if (Nat.leb s j && Nat.ltb j e)%bool then v else x)
  | None => None end.
Proof.
  unfold assign_range. rewrite nth_error_map', nth_error_combine, nth_error_seq.
  destruct (nth_error arr j) eqn:E.
  - assert (j < length arr)%nat by (apply nth_error_Some; congruence).
    destruct (Nat.ltb_spec j (length arr)); [|lia]. cbn. reflexivity.
  - destruct (j <? length arr)%nat; auto.
Qed.

Lemma fold_assign_length cast (segs : list (Z * (nat * nat))) arr :
  length (fold_left (fun arr t => assign_range (fst (snd t)) (snd (snd t)) (cast (fst t)) arr) segs arr)
  = length arr.
Proof.
  revert arr; induction segs; intros arr; cbn; auto. rewrite IHsegs, assign_range_length; auto.
Qed.

Lemma fold_assign_nth cast (segs : list (Z * (nat * nat))) arr j t :
  (j < length arr)%nat ->
  In t segs -> (fst (snd t) <= j < snd (snd t))%nat ->
  (forall t', In t' segs -> (fst (snd t') <= j < snd (snd t'))%nat -> fst t' = fst t) ->
  nth_error (fold_left (fun arr t => assign_range (fst (snd t)) (snd (snd t)) (cast (fst t)) arr) segs arr) j
  = Some (cast (fst t)).
Proof.
  intros Hj Hin Hcov Huniq. revert Hin Huniq.
  induction segs as [|t' segs IH] using rev_ind; intros Hin Huniq; [destruct Hin|].
  rewrite fold_left_app. cbn. rewrite assign_range_nth.
  destruct (nth_error (fold_left _ segs arr) j) eqn:E.
  2:{ apply nth_error_None in E. rewrite fold_assign_length in E. lia. }
  destruct (Nat.leb (fst (snd t')) j && Nat.ltb j (snd (snd t')))%bool eqn:C.
  - apply andb_prop in C. destruct C as [C1 C2]. apply Nat.leb_le in C1. apply Nat.ltb_lt in C2.
    f_equal. f_equal. apply Huniq; [apply in_app_iff; right; left; auto|lia].
  - apply IH.
    + apply in_app_iff in Hin. destruct Hin as [|[<-|[]]]; auto.
      exfalso. apply andb_false_iff in C. rewrite Nat.leb_gt, Nat.ltb_ge in C. lia.
    + intros t'' Ht'' Hc. apply Huniq; auto. apply in_app_iff; auto.
Qed.

(** Position of [j] in a strictly increasing list of offsets starting at 0. *)
Lemma segment_exists (o : list nat) j :
  nth_error o 0 = Some 0%nat -> (j < last o 0)%nat ->
  exists s a b, nth_error o s = Some a /\ nth_error o (S s) = Some b /\ (a <= j < b)%nat.
Proof.
  intros H0 Hj.
  assert (forall n, (n < length o)%nat -> (j < nth n o 0)%nat ->
     exists s a b, nth_error o s = Some a /\ nth_error o (S s) = Some b /\ (a <= j < b)%nat) as G.
  { induction n as [|n IH]; intros Hn Hjn.
    - apply nth_error_nth with (d := 0%nat) in H0. lia.
    - destruct (Nat.lt_ge_cases j (nth n o 0%nat)) as [|Hge]; [apply IH; auto; lia|].
      exists n, (nth n o 0%nat), (nth (S n) o 0%nat).
      rewrite !(nth_error_nth' o 0%nat) by lia. auto. }
  destruct o as [|x o]; [discriminate|].
  apply (G (length o)); [cbn; lia|].
  assert (last (x :: o) 0%nat = nth (length o) (x :: o) 0%nat) as <-; auto.
  clear. revert x; induction o as [|y o IH]; intros x; auto.
  change (last (x :: y :: o) 0%nat) with (last (y :: o) 0%nat). rewrite IH. reflexivity.
Qed.

Lemma segment_unique (o : list nat) j s a b s' a' b' :
  StronglySorted lt o ->
  nth_error o s = Some a -> nth_error o (S s) = Some b -> (a <= j < b)%nat ->
  nth_error o s' = Some a' -> nth_error o (S s') = Some b' -> (a' <= j < b')%nat -> s = s'.
Proof.
  intros HS H1 H2 H3 H4 H5 H6.
  destruct (Nat.lt_trichotomy s s') as [L|[E|L]]; auto; exfalso.
  - destruct (Nat.eq_dec (S s) s') as [<-|].
    + rewrite H4 in H2. inversion H2; subst. lia.
    + assert (b < a')%nat by (eapply (StronglySorted_nth (l := o) (i := S s) (j := s')); eauto; lia). lia.
  - destruct (Nat.eq_dec (S s') s) as [<-|].
    + rewrite H1 in H5. inversion H5; subst. lia.
    + assert (b' < a)%nat by (eapply (StronglySorted_nth (l := o) (i := S s') (j := s)); eauto; lia). lia.
Qed.

(** Value of the unrolled ids at a row: the id at the start of its segment. *)
Lemma unroll_nth cast junk nf X y ids d j s a b :
  ds_init (V:=V) nf X y ids = Ok d -> length junk = length ids ->
  nth_error (ds_offs d) s = Some a -> nth_error (ds_offs d) (S s) = Some b -> (a <= j < b)%nat ->
  nth_error (unroll cast junk d) j = Some (cast (nth a ids 0)) /\ (j < length ids)%nat /\
  nth_error (ds_qids d) s = Some (nth a ids 0).
Proof.
  intros H Hjunk Ha Hb Hj. apply ds_init_inv in H. destruct H as [Hlen ->].
  cbn [ds_offs ds_qids] in *.
  assert (Hs : (s < length (firsts ids))%nat).
  { assert (S s < length (firsts ids ++ [length ids]))%nat by (apply nth_error_Some; congruence).
    rewrite app_length in H. cbn in H. lia. }
  assert (Hq : nth_error (map (fun i => nth i ids 0) (firsts ids)) s = Some (nth a ids 0)).
  { rewrite nth_error_map'. rewrite nth_error_app1 in Ha by auto. rewrite Ha. auto. }
  assert (Hbl : (b <= length ids)%nat).
  { apply nth_error_In in Hb. apply in_app_iff in Hb. destruct Hb as [Hb|[<-|[]]]; auto.
    apply firsts_lt in Hb. lia. }
  split; [|split; auto; lia].
  unfold unroll. set (d := mkDataset X nf y _ _).
  rewrite fold_assign_nth with (t := (nth a ids 0, (a, b))); auto.
  - rewrite Hjunk; lia.
  - apply nth_error_In with (n := s). rewrite query_iterator_nth. cbn [ds_qids ds_offs d].
    unfold d; cbn [ds_qids ds_offs]. rewrite Hq, Ha, Hb. auto.
  - intros [q' [a' b']] Hin Hc. cbn [fst snd] in *. apply In_nth_error in Hin. destruct Hin as [s' Hs'].
    rewrite query_iterator_nth in Hs'. unfold d in Hs'; cbn [ds_qids ds_offs] in Hs'.
    destruct (nth_error (map _ _) s') eqn:E1; [|discriminate].
    destruct (nth_error (_ ++ _) s') eqn:E2; [|discriminate].
    destruct (nth_error (_ ++ _) (S s')) eqn:E3; [|discriminate].
    inversion Hs'; subst.
    assert (s = s') by (eapply segment_unique with (j := j); eauto; apply offs_sorted). subst. congruence.
Qed.

Lemma unroll_length cast junk d : length (unroll cast junk d) = length junk.
Proof. apply fold_assign_length. Qed.

Lemma unroll_segment_exists nf X y ids d j :
  ds_init (V:=V) nf X y ids = Ok d -> (j < length ids)%nat ->
  exists s a b, nth_error (ds_offs d) s = Some a /\ nth_error (ds_offs d) (S s) = Some b
                /\ (a <= j < b)%nat.
Proof.
  intros H Hj. assert (Hne : ids <> []) by (intros ->; cbn in Hj; lia).
  destruct (C01_lemma _ _ _ Hne H) as (H0 & _ & HL & _).
  apply segment_exists; auto. rewrite HL; auto.
Qed.

Lemma i32_id q : - 2 ^ 31 <= q < 2 ^ 31 -> i32 q = q.
Proof.
  intros H. unfold i32, wrap_s. change (2 ^ (32 - 1)) with (2 ^ 31).
  destruct (Z.le_gt_cases 0 q).
  - rewrite Z.mod_small by lia. destruct (Z.ltb_spec q (2 ^ 31)); lia.
  - replace (q mod 2 ^ 32) with (q + 2 ^ 32).
    + destruct (Z.ltb_spec (q + 2 ^ 32) (2 ^ 31)); lia.
    + apply Z.mod_unique with (q := -1); lia.
Qed.

Lemma unroll_grouped cast nf X y ids d junk :
  ds_init (V:=V) nf X y ids = Ok d -> length junk = length ids -> grouped ids ->
  unroll cast junk d = map cast ids.
Proof.
  intros H Hy Hg. apply nth_error_ext'. intros j.
  destruct (Nat.lt_ge_cases j (length ids)) as [Hj|Hj].
  - destruct (@unroll_segment_exists _ _ _ _ _ j H Hj) as (s & a & b & Ha & Hb & Hab).
    destruct (@unroll_nth cast junk _ _ _ _ _ j s a b H Hy Ha Hb Hab) as (-> & _ & _).
    rewrite nth_error_map'.
    rewrite (nth_error_nth' ids 0) by auto. cbn. f_equal. f_equal.
    (* ids[j] = ids[a] *)
    pose proof (ds_init_inv _ _ _ _ H) as [Hlen E]. subst d. cbn [ds_offs] in *.
    set (q := nth j ids 0).
    assert (Hq : nth_error ids j = Some q) by (apply nth_error_nth'; auto).
    assert (Hin : In q ids) by (eapply nth_error_In; eauto).
    set (f := first_index q ids).
    destruct (first_index_spec _ _ Hin) as [Hf Hfn]. fold f in Hf, Hfn.
    assert (Hfj : (f <= j)%nat).
    { destruct (Nat.le_gt_cases f j); auto. exfalso. apply Hfn. eapply nth_error_In_firstn; eauto. }
    assert (Hff : In f (firsts ids)) by (apply firsts_In; eauto).
    assert (Haf : In a (firsts ids)).
    { assert (S s < length (firsts ids ++ [length ids]))%nat as L by (apply nth_error_Some; congruence).
      rewrite app_length in L; cbn in L. rewrite nth_error_app1 in Ha by lia.
      eapply nth_error_In; eauto. }
    assert (Hfa : (f <= a)%nat).
    { destruct (Nat.le_gt_cases f a); auto. exfalso.
      apply In_nth_error in Hff. destruct Hff as [sf Hsf].
      assert (Hsf' : nth_error (firsts ids ++ [length ids]) sf = Some f)
        by (rewrite nth_error_app1; auto; apply nth_error_Some; congruence).
      destruct (Nat.le_gt_cases sf s) as [L|L].
      - destruct (Nat.eq_dec sf s) as [->|]; [rewrite Hsf' in Ha; inversion Ha; lia|].
        assert (f < a)%nat by (eapply (StronglySorted_nth (i := sf) (j := s) (offs_sorted ids)); eauto; lia). lia.
      - destruct (Nat.eq_dec sf (S s)) as [->|].
        + rewrite Hsf' in Hb. inversion Hb; subst. lia.
        + assert (b < f)%nat by (eapply (StronglySorted_nth (i := S s) (j := sf) (offs_sorted ids)); eauto; lia). lia. }
    assert (Ha' : nth_error ids a = Some q).
    { apply (Hg f a j); auto; lia. }
    apply nth_error_nth; auto.
  - transitivity (@None Z); [|symmetry]; apply nth_error_None.
    + rewrite unroll_length. lia.
    + rewrite map_length. lia.
Qed.

Lemma blank_length nf X y ids d : ds_init (V:=V) nf X y ids = Ok d -> length y = length ids ->
  length (blank d) = length ids.
Proof.
  intros H Hy. apply ds_init_inv in H. destruct H as [_ ->].
  unfold blank, n_instances. rewrite repeat_length. cbn. auto.
Qed.

Lemma map_i32_id ids : int32_ids ids -> map i32 ids = ids.
Proof.
  intros H. rewrite <- (map_id ids) at 2. apply map_ext_in. intros q Hq.
  apply i32_id. unfold int32_ids in H. rewrite Forall_forall in H. auto.
Qed.

Lemma get_qids_built nf X y ids d : built (V:=V) nf X y ids d -> get_qids_dataset d = ids.
Proof.
  intros (Hy & Hg & Hr & H). unfold get_qids_dataset.
  erewrite unroll_grouped; eauto; [apply map_i32_id; auto|]. eapply blank_length; eauto.
Qed.

Lemma C02_lemma nf X y ids d :
  length y = length ids -> int32_ids ids -> ds_init (V:=V) nf X y ids = Ok d ->
  (get_qids_dataset d = ids <-> grouped ids).
Proof.
  intros Hy Hr H. split.
  2:{ intros Hg. eapply get_qids_built. split; eauto. }
  intros E i j k q Hijk Hi Hk.
  assert (Hkl : (k < length ids)%nat) by (apply nth_error_Some; congruence).
  destruct (@unroll_segment_exists _ _ _ _ _ i H) as (s & a & b & Ha & Hb & Hab); [lia|].
  destruct (@unroll_segment_exists _ _ _ _ _ k H) as (s' & a' & b' & Ha' & Hb' & Hab'); [lia|].
  pose proof (blank_length _ _ _ _ H Hy) as Hbl.
  destruct (@unroll_nth i32 (blank d) _ _ _ _ _ i s a b H Hbl Ha Hb Hab) as (U1 & _ & Q1).
  destruct (@unroll_nth i32 (blank d) _ _ _ _ _ k s' a' b' H Hbl Ha' Hb' Hab') as (U2 & _ & Q2).
  unfold get_qids_dataset in E. rewrite E in U1, U2.
  assert (Hne : ids <> []) by (intros ->; cbn in Hkl; lia).
  destruct (C01_lemma _ _ _ Hne H) as (_ & HS & _ & _ & HND & HQ & _).
  assert (Hin1 : In (nth a ids 0) ids) by (apply HQ; eapply nth_error_In; eauto).
  assert (Hin2 : In (nth a' ids 0) ids) by (apply HQ; eapply nth_error_In; eauto).
  unfold int32_ids in Hr. rewrite Forall_forall in Hr.
  rewrite i32_id in U1, U2 by auto.
  assert (nth a ids 0 = nth a' ids 0) as Eq by congruence.
  assert (s = s').
  { rewrite <- Eq in Q2. apply (proj1 (NoDup_nth_error _) HND); [apply nth_error_Some; congruence|congruence]. }
  subst s'. rewrite Ha in Ha'. rewrite Hb in Hb'. inversion Ha'; inversion Hb'; subst a' b'.
  assert (Hj : (a <= j < b)%nat) by lia.
  destruct (@unroll_nth i32 (blank d) _ _ _ _ _ j s a b H Hbl Ha Hb Hj) as (U3 & _ & _).
  rewrite E in U3. rewrite i32_id in U3 by auto. congruence.
Qed.
End DS.
