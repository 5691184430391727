(** General lemmas on lists, outcomes, slices, sorting. *)
From Coq Require Import List ZArith Lia Bool Permutation Sorted.
From Verif Require Import Base.
Import ListNotations.
Set Implicit Arguments.

Lemma bind_ok {A B} (m : res A) (f : A -> res B) b :
  bind m f = Ok b <-> exists a, m = Ok a /\ f a = Ok b.
Proof.
  destruct m as [a|e]; cbn; split.
  - intros H; exists a; auto.
  - intros (a' & Ha & Hf). inversion Ha; subst; auto.
  - discriminate.
  - intros (a' & Ha & _). discriminate.
Qed.

Lemma mapM_ok_iff {A B} (f : A -> res B) l ys :
  mapM f l = Ok ys <-> Forall2 (fun x y => f x = Ok y) l ys.
Proof.
  revert ys; induction l as [|x xs IH]; intros ys; cbn.
  - split; intros H; [inversion H; constructor | inversion H; auto].
  - split.
    + intros H. destruct (f x) eqn:Hx; cbn in H; [|discriminate].
      destruct (mapM f xs) eqn:Hm; cbn in H; [|discriminate].
      inversion H; subst. constructor; auto. apply IH; auto.
    + intros H; inversion H; subst. rewrite H2; cbn.
      apply IH in H4. rewrite H4; reflexivity.
Qed.

Lemma mapM_map_ok {A B} (f : A -> res B) (g : A -> B) l :
  (forall x, In x l -> f x = Ok (g x)) -> mapM f l = Ok (map g l).
Proof.
  induction l as [|x xs IH]; intros H; cbn; auto.
  rewrite H by (left; auto); cbn. rewrite IH; [reflexivity|].
  intros; apply H; right; auto.
Qed.

Lemma mapM_length {A B} (f : A -> res B) l ys : mapM f l = Ok ys -> length ys = length l.
Proof.
  intros H. apply mapM_ok_iff in H. induction H; cbn; auto.
Qed.

Lemma mapM_ext {A B} (f g : A -> res B) l :
  (forall x, In x l -> f x = g x) -> mapM f l = mapM g l.
Proof.
  induction l as [|x xs IH]; intros H; cbn; auto.
  rewrite H by (left; auto). destruct (g x); cbn; auto.
  rewrite IH; auto. intros; apply H; right; auto.
Qed.

Lemma mapM_app {A B} (f : A -> res B) l1 l2 :
  mapM f (l1 ++ l2) = (do a <- mapM f l1; do b <- mapM f l2; Ok (a ++ b)).
Proof.
  induction l1 as [|x xs IH]; cbn.
  - destruct (mapM f l2); auto.
  - destruct (f x); cbn; auto. rewrite IH.
    destruct (mapM f xs); cbn; auto. destruct (mapM f l2); cbn; auto.
Qed.

Lemma foldM_app {A B} (f : B -> A -> res B) l1 l2 b :
  foldM f (l1 ++ l2) b = (do b' <- foldM f l1 b; foldM f l2 b').
Proof.
  revert b; induction l1 as [|x xs IH]; intros b; cbn; auto.
  destruct (f b x); cbn; auto.
Qed.

(** ** zget / upd *)
Lemma zget_nat {A} (l : list A) (i : nat) : zget l (Z.of_nat i) = nth_error l i.
Proof.
  unfold zget. destruct (Z.ltb_spec (Z.of_nat i) 0); [lia|]. rewrite Nat2Z.id; auto.
Qed.

Lemma zget_some_bounds {A} (l : list A) i a :
  zget l i = Some a -> (0 <= i < Z.of_nat (length l))%Z.
Proof.
  unfold zget. destruct (Z.ltb_spec i 0); [discriminate|]. intros E.
  assert (Z.to_nat i < length l) by (apply nth_error_Some; congruence). lia.
Qed.

Lemma zget_in_bounds {A} (l : list A) i :
  (0 <= i < Z.of_nat (length l))%Z -> exists a, zget l i = Some a.
Proof.
  intros H. unfold zget. destruct (Z.ltb_spec i 0); [lia|].
  destruct (nth_error l (Z.to_nat i)) eqn:E; eauto.
  apply nth_error_None in E. lia.
Qed.

Lemma upd_length {A} (l : list A) i v : length (upd l i v) = length l.
Proof. revert i; induction l; destruct i; cbn; auto. Qed.

Lemma nth_error_upd_eq {A} (l : list A) i v :
  i < length l -> nth_error (upd l i v) i = Some v.
Proof. revert i; induction l; destruct i; cbn; intros; try lia; auto. apply IHl; lia. Qed.

Lemma nth_error_upd_neq {A} (l : list A) i j v :
  i <> j -> nth_error (upd l i v) j = nth_error l j.
Proof. revert i j; induction l; destruct i, j; cbn; intros; auto; try congruence. Qed.

Lemma nth_error_upd {A} (l : list A) i j v :
  nth_error (upd l i v) j = if Nat.eqb i j then (if j <? length l then Some v else None) else nth_error l j.
Proof.
  destruct (Nat.eqb_spec i j).
  - subst. destruct (Nat.ltb_spec j (length l)).
    + apply nth_error_upd_eq; auto.
    + apply nth_error_None. rewrite upd_length; lia.
  - apply nth_error_upd_neq; auto.
Qed.

Lemma upd_comm {A} (l : list A) i j v w :
  i <> j -> upd (upd l i v) j w = upd (upd l j w) i v.
Proof.
  revert i j; induction l; destruct i, j; cbn; intros; auto; try congruence.
  f_equal; apply IHl; congruence.
Qed.

Lemma nth_error_ext' {A} (l1 l2 : list A) :
  (forall i, nth_error l1 i = nth_error l2 i) -> l1 = l2.
Proof.
  revert l2; induction l1 as [|x xs IH]; destruct l2 as [|y ys]; intros H; auto.
  - specialize (H 0); discriminate.
  - specialize (H 0); discriminate.
  - f_equal; [specialize (H 0); cbn in H; congruence|].
    apply IH; intros i. exact (H (S i)).
Qed.

Lemma nth_error_map' {A B} (f : A -> B) l i :
  nth_error (map f l) i = option_map f (nth_error l i).
Proof. revert i; induction l; destruct i; cbn; auto. Qed.

Lemma nth_error_seq s n i :
  nth_error (seq s n) i = if i <? n then Some (s + i) else None.
Proof.
  revert s i; induction n as [|n IH]; intros s i; cbn [seq].
  - destruct i; cbn; auto.
  - destruct i; cbn [nth_error]; [cbn; f_equal; lia|].
    rewrite IH. change (S i <? S n) with (i <? n). destruct (i <? n); [f_equal; lia|auto].
Qed.

Lemma nth_error_firstn {A} (l : list A) k i :
  nth_error (firstn k l) i = if i <? k then nth_error l i else None.
Proof.
  revert k i; induction l as [|x xs IH]; intros k i.
  - rewrite firstn_nil. destruct (i <? k); destruct i; auto.
  - destruct k; cbn [firstn].
    + destruct i; cbn; auto.
    + destruct i; cbn; auto. rewrite IH. reflexivity.
Qed.

Lemma nth_error_skipn {A} (l : list A) k i :
  nth_error (skipn k l) i = nth_error l (k + i).
Proof.
  revert k; induction l as [|x xs IH]; intros k; cbn.
  - rewrite skipn_nil. destruct i, k; auto.
  - destruct k; cbn; auto.
Qed.

Lemma map_ext_in' {A B} (f g : A -> B) l : (forall x, In x l -> f x = g x) -> map f l = map g l.
Proof. apply map_ext_in. Qed.

(** ** slices *)
Lemma slice_to_nonneg {A} (k : Z) (l : list A) :
  (0 <= k)%Z -> slice_to k l = firstn (Z.to_nat k) l.
Proof.
  intros H. unfold slice_to, slice_bound.
  destruct (Z.ltb_spec k 0); [lia|].
  destruct (Nat.le_gt_cases (length l) (Z.to_nat k)).
  - rewrite Nat.min_l by lia. rewrite firstn_all.
    symmetry. apply firstn_all2; lia.
  - rewrite Nat.min_r by lia. reflexivity.
Qed.

Lemma slice_nonneg {A} (a b : Z) (l : list A) :
  (0 <= a <= b)%Z -> (b <= Z.of_nat (length l))%Z ->
  slice a b l = firstn (Z.to_nat b - Z.to_nat a) (skipn (Z.to_nat a) l).
Proof.
  intros H1 H2. unfold slice, slice_bound.
  destruct (Z.ltb_spec a 0); [lia|]. destruct (Z.ltb_spec b 0); [lia|].
  rewrite !Nat.min_r by lia. reflexivity.
Qed.

(** ** masks *)
Lemma mask_select_map {A B} (f : A -> B) m l : mask_select m (map f l) = map f (mask_select m l).
Proof.
  revert l; induction m as [|b m IH]; destruct l; cbn; auto.
  destruct b; cbn; rewrite IH; auto.
Qed.

Lemma mask_select_filter {A} (p : A -> bool) l : mask_select (map p l) l = filter p l.
Proof. induction l; cbn; auto. rewrite IHl; destruct (p a); auto. Qed.

Lemma mask_select_length {A B} m (l : list A) (l' : list B) :
  length l = length l' -> length (mask_select m l) = length (mask_select m l').
Proof.
  revert l l'; induction m as [|b m IH]; destruct l, l'; cbn; intros; auto; try lia.
  destruct b; cbn; auto.
Qed.

Lemma mask_select_combine {A B} m (l : list A) (l' : list B) :
  mask_select m (combine l l') = combine (mask_select m l) (mask_select m l') \/ length l <> length l'.
Proof.
  destruct (Nat.eq_dec (length l) (length l')) as [E|]; auto. left.
  revert l l' E; induction m as [|b m IH]; destruct l, l'; cbn; intros; auto; try lia.
  destruct b; cbn; rewrite IH by lia; auto.
Qed.

(** ** sorting *)
Section Sorting.
  Context {A : Type} (leb : A -> A -> bool).
  Hypothesis leb_total : forall x y, leb x y = true \/ leb y x = true.
  Hypothesis leb_trans : forall x y z, leb x y = true -> leb y z = true -> leb x z = true.

  Lemma insert_perm x l : Permutation (insert leb x l) (x :: l).
  Proof.
    induction l as [|y ys IH]; cbn; auto.
    destruct (leb x y); auto.
    rewrite IH. apply perm_swap.
  Qed.

  Lemma isort_perm l : Permutation (isort leb l) l.
  Proof.
    induction l as [|x xs IH]; cbn; auto.
    rewrite insert_perm. auto.
  Qed.

  Lemma insert_sorted x l :
    StronglySorted (fun a b => leb a b = true) l ->
    StronglySorted (fun a b => leb a b = true) (insert leb x l).
  Proof.
    induction l as [|y ys IH]; cbn; intros H.
    - constructor; auto.
    - inversion H; subst. destruct (leb x y) eqn:E.
      + constructor; auto. constructor; auto.
        eapply Forall_impl; [|exact H3]. intros z Hz; cbn. eapply leb_trans; eauto.
      + assert (leb y x = true) by (destruct (leb_total x y); congruence).
        constructor; auto.
        apply Forall_forall. intros z Hz.
        apply (Permutation_in _ (insert_perm x ys)) in Hz. destruct Hz as [<-|Hz]; auto.
        rewrite Forall_forall in H3; auto.
  Qed.

  Lemma isort_sorted l : StronglySorted (fun a b => leb a b = true) (isort leb l).
  Proof. induction l; cbn; [constructor | apply insert_sorted; auto]. Qed.
End Sorting.

Lemma StronglySorted_perm_unique {A} (R : A -> A -> Prop) l1 l2 :
  (forall x y, In x l1 -> In y l1 -> R x y -> R y x -> x = y) ->
  StronglySorted R l1 -> StronglySorted R l2 -> Permutation l1 l2 -> l1 = l2.
Proof.
  revert l2; induction l1 as [|x xs IH]; intros l2 Hanti H1 H2 HP.
  - apply Permutation_nil in HP; auto.
  - destruct l2 as [|y ys]; [apply Permutation_sym, Permutation_nil in HP; discriminate|].
    inversion H1; subst. inversion H2; subst.
    assert (x = y) as ->.
    { assert (Hy : In y (x :: xs)) by (apply (Permutation_in _ (Permutation_sym HP)); left; auto).
      assert (Hx : In x (y :: ys)) by (apply (Permutation_in _ HP); left; auto).
      destruct Hy as [|Hy]; auto. destruct Hx as [|Hx]; auto.
      apply Hanti; [left; auto|right; auto| |].
      - rewrite Forall_forall in H4; auto.
      - rewrite Forall_forall in H6; auto. }
    f_equal. apply IH; auto.
    + intros; apply Hanti; auto; right; auto.
    + eapply Permutation_cons_inv; eauto.
Qed.

Lemma StronglySorted_map {A B} (R : A -> A -> Prop) (S : B -> B -> Prop) (f : A -> B) l :
  (forall x y, R x y -> S (f x) (f y)) -> StronglySorted R l -> StronglySorted S (map f l).
Proof.
  intros HRS. induction 1; cbn; constructor; auto.
  rewrite Forall_map. eapply Forall_impl; eauto.
Qed.

Lemma StronglySorted_filter {A} (R : A -> A -> Prop) p l :
  StronglySorted R l -> StronglySorted R (filter p l).
Proof.
  induction 1; cbn; [constructor|]. destruct (p a); auto.
  constructor; auto. rewrite Forall_forall in *. intros y Hy. apply filter_In in Hy. apply H0; tauto.
Qed.

Lemma StronglySorted_seq s n : StronglySorted lt (seq s n).
Proof.
  revert s; induction n; intros s; cbn; constructor; auto.
  apply Forall_forall. intros x Hx. apply in_seq in Hx. lia.
Qed.

Lemma StronglySorted_nth {A} (R : A -> A -> Prop) l i j a b :
  StronglySorted R l -> i < j -> nth_error l i = Some a -> nth_error l j = Some b -> R a b.
Proof.
  intros H; revert i j; induction H; intros i j Hij Hi Hj.
  - destruct i; discriminate.
  - destruct j; [lia|]. cbn in Hj. destruct i; cbn in Hi.
    + inversion Hi; subst. rewrite Forall_forall in H0. apply H0. eapply nth_error_In; eauto.
    + eapply IHStronglySorted with (i:=i) (j:=j); eauto; lia.
Qed.

Lemma StronglySorted_intro {A} (R : A -> A -> Prop) l :
  (forall i j a b, i < j -> nth_error l i = Some a -> nth_error l j = Some b -> R a b) ->
  StronglySorted R l.
Proof.
  induction l as [|x xs IH]; intros H; constructor.
  - apply IH. intros i j a b Hij Ha Hb. apply (H (S i) (S j)); auto; lia.
  - apply Forall_forall. intros y Hy. apply In_nth_error in Hy. destruct Hy as [j Hj].
    apply (H 0 (S j)); auto; lia.
Qed.

Lemma Permutation_filter {A} (p : A -> bool) l1 l2 :
  Permutation l1 l2 -> Permutation (filter p l1) (filter p l2).
Proof.
  induction 1; cbn; auto.
  - destruct (p x); auto.
  - destruct (p x), (p y); auto. apply perm_swap.
  - etransitivity; eauto.
Qed.

Lemma filter_length_le {A} (p : A -> bool) l : length (filter p l) <= length l.
Proof. induction l; cbn; auto. destruct (p a); cbn; lia. Qed.

Lemma NoDup_map_inj {A B} (f : A -> B) l :
  (forall x y, In x l -> In y l -> f x = f y -> x = y) -> NoDup l -> NoDup (map f l).
Proof.
  induction l as [|x xs IH]; intros H Hn; cbn; constructor; inversion Hn; subst.
  - intros Hin. apply in_map_iff in Hin. destruct Hin as (z & Hz & Hin).
    apply H in Hz; [subst; auto|right; auto|left; auto].
  - apply IH; auto. intros; apply H; auto; right; auto.
Qed.

Lemma NoDup_app_intro {A} (l1 l2 : list A) :
  NoDup l1 -> NoDup l2 -> (forall x, In x l1 -> ~ In x l2) -> NoDup (l1 ++ l2).
Proof.
  induction l1 as [|x xs IH]; intros H1 H2 H; cbn; auto.
  inversion H1; subst. constructor.
  - rewrite in_app_iff. intros [|Hx]; auto. apply (H x); auto. left; auto.
  - apply IH; auto. intros y Hy. apply H. right; auto.
Qed.

Lemma NoDup_app_inv {A} (l1 l2 : list A) :
  NoDup (l1 ++ l2) -> NoDup l1 /\ NoDup l2 /\ (forall x, In x l1 -> ~ In x l2).
Proof.
  induction l1 as [|x xs IH]; cbn; intros H.
  - repeat split; auto. constructor.
  - inversion H; subst. destruct (IH H3) as (Ha & Hb & Hc). repeat split; auto.
    + constructor; auto. intros Hin; apply H2, in_app_iff; auto.
    + intros y [->|Hy]; auto. intros Hin; apply H2, in_app_iff; auto.
Qed.

Lemma list_sum_app l1 l2 : list_sum (l1 ++ l2) = list_sum l1 + list_sum l2.
Proof. apply list_sum_app. Qed.

Lemma firstn_firstn_le {A} (l : list A) a b : a <= b -> firstn a (firstn b l) = firstn a l.
Proof. intros. rewrite firstn_firstn. f_equal. lia. Qed.

Lemma forallb_firstn {A} (p : A -> bool) l k : forallb p l = true -> forallb p (firstn k l) = true.
Proof.
  rewrite !forallb_forall. intros H x Hx. apply H.
  rewrite <- (firstn_skipn k l). apply in_app_iff; auto.
Qed.

Lemma In_firstn {A} (l : list A) k x : In x (firstn k l) -> In x l.
Proof. intros H. rewrite <- (firstn_skipn k l). apply in_app_iff; auto. Qed.

Lemma In_skipn {A} (l : list A) k x : In x (skipn k l) -> In x l.
Proof. intros H. rewrite <- (firstn_skipn k l). apply in_app_iff; auto. Qed.

Lemma seq_split s n k : k <= n -> seq s n = seq s k ++ seq (s + k) (n - k).
Proof. intros. rewrite <- seq_app. f_equal; lia. Qed.

Lemma map_seq_shift {A} (f : nat -> A) s n : map f (seq s n) = map (fun i => f (s + i)) (seq 0 n).
Proof.
  revert s; induction n; intros s; cbn; auto. f_equal; [f_equal; lia|].
  rewrite (IHn (S s)). rewrite <- seq_shift, map_map. apply map_ext. intros; f_equal; lia.
Qed.

Lemma skipn_skipn' {A} (l : list A) a b : skipn a (skipn b l) = skipn (b + a) l.
Proof.
  revert l; induction b as [|b IH]; intros l; cbn; auto.
  destruct l; auto. apply skipn_nil.
Qed.
