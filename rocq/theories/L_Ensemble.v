(** Trees in arrays: walks, statistics, pruning. *)
From Coq Require Import List ZArith Lia Bool Permutation.
From Verif Require Import Base Lists Num M_Dataset M_NDCG M_Ensemble S_Ensemble.
Import ListNotations.
Local Open Scope Z_scope.

(** ** Generic facts *)
Lemma zget_range {A} (l : list A) i x : zget l i = Some x -> 0 <= i < Z.of_nat (length l).
Proof.
  unfold zget. destruct (i <? 0) eqn:E; [discriminate|]. apply Z.ltb_ge in E. intros H.
  assert (nth_error l (Z.to_nat i) <> None) by congruence. apply nth_error_Some in H0. lia.
Qed.
Lemma mem_get_zget {A} (l : list A) i x : zget l i = Some x -> mem_get l i = Ok x.
Proof. unfold mem_get. intros ->. reflexivity. Qed.
Lemma py_get_zget {A} (l : list A) i x : zget l i = Some x -> py_get l i = Ok x.
Proof.
  intros H. pose proof (zget_range _ _ _ H) as Hr. unfold py_get.
  replace (i <? 0) with false by (symmetry; apply Z.ltb_ge; lia). rewrite H. reflexivity.
Qed.
Lemma zget_nth {A} (l : list A) (i : nat) : zget l (Z.of_nat i) = nth_error l i.
Proof. unfold zget. replace (Z.of_nat i <? 0) with false by (symmetry; apply Z.ltb_ge; lia). rewrite Nat2Z.id. reflexivity. Qed.
Lemma zget_some_nth {A} (l : list A) i d : 0 <= i < Z.of_nat (length l) -> zget l i = Some (nth (Z.to_nat i) l d).
Proof.
  intros H. unfold zget. replace (i <? 0) with false by (symmetry; apply Z.ltb_ge; lia).
  apply nth_error_nth'. lia.
Qed.
Lemma zrange_seq n : zrange 0 (Z.of_nat n) = map Z.of_nat (seq 0 n).
Proof. unfold zrange. rewrite Z.sub_0_r, Nat2Z.id. apply map_ext. intros. lia. Qed.
Lemma zrange_length a b : length (zrange a b) = Z.to_nat (b - a).
Proof. unfold zrange. rewrite map_length, seq_length. reflexivity. Qed.
Lemma in_zrange a b x : In x (zrange a b) <-> a <= x < b.
Proof.
  unfold zrange. rewrite in_map_iff. split.
  - intros (i & <- & Hi). apply in_seq in Hi. lia.
  - intros H. exists (Z.to_nat (x - a)). split; [lia|]. apply in_seq. lia.
Qed.
Lemma zrange_nodup a b : NoDup (zrange a b).
Proof.
  unfold zrange. apply FinFun.Injective_map_NoDup; [|apply seq_NoDup]. intros x y H. lia.
Qed.

(** Traversal over the positions of a list. *)
Lemma mapM_zrange {A B} (l : list A) (f : Z -> res B) (g : A -> B) :
  (forall i a, nth_error l i = Some a -> f (Z.of_nat i) = Ok (g a)) ->
  mapM f (zrange 0 (Z.of_nat (length l))) = Ok (map g l).
Proof.
  intros H. rewrite zrange_seq.
  assert (Hg : forall l1 l2, l = l1 ++ l2 -> mapM f (map Z.of_nat (seq (length l1) (length l2))) = Ok (map g l2)).
  { intros l1 l2. revert l1. induction l2 as [|a l2 IH]; intros l1 E; [reflexivity|].
    cbn [length seq map mapM]. rewrite (H (length l1) a).
    - cbn [bind]. specialize (IH (l1 ++ [a])). rewrite app_length in IH. cbn [length] in IH.
      rewrite Nat.add_1_r in IH. rewrite IH; [reflexivity|]. rewrite E, <- app_assoc. reflexivity.
    - rewrite E, nth_error_app2, Nat.sub_diag by lia. reflexivity. }
  apply (Hg [] l eq_refl).
Qed.
Lemma foldM_zrange {A B} (l : list A) (f : B -> Z -> res B) (g : B -> A -> B) b :
  (forall i a c, nth_error l i = Some a -> f c (Z.of_nat i) = Ok (g c a)) ->
  foldM f (zrange 0 (Z.of_nat (length l))) b = Ok (fold_left g l b).
Proof.
  intros H. rewrite zrange_seq.
  assert (Hg : forall l2 l1 b, l = l1 ++ l2 ->
            foldM f (map Z.of_nat (seq (length l1) (length l2))) b = Ok (fold_left g l2 b)).
  { induction l2 as [|a l2 IH]; intros l1 b0 E; [reflexivity|].
    cbn [length seq map foldM fold_left]. rewrite (H (length l1) a).
    - cbn [bind]. specialize (IH (l1 ++ [a]) (g b0 a)). rewrite app_length in IH. cbn [length] in IH.
      rewrite Nat.add_1_r in IH. rewrite IH; [reflexivity|]. rewrite E, <- app_assoc. reflexivity.
    - rewrite E, nth_error_app2, Nat.sub_diag by lia. reflexivity. }
  apply (Hg l [] b eq_refl).
Qed.

(** ** Shapes of trees *)
Section Trees.
Context {A V : Type}.
Implicit Types t : tree A V.
Lemma size_pos t : (1 <= size t)%nat.
Proof. destruct t; cbn [size]; lia. Qed.
Lemma marks_length t : length (marks t) = size t.
Proof. induction t as [|a f thr l IHl r IHr]; cbn [marks size length]; [reflexivity|]. rewrite app_length. lia. Qed.
Lemma size_leaves t : (size t = 2 * leaves t - 1)%nat /\ (1 <= leaves t)%nat.
Proof. induction t as [|a f thr l IHl r IHr]; cbn [size leaves]; lia. Qed.
Lemma mark_in_marks t : In (mark t) (marks t).
Proof. destruct t; left; reflexivity. Qed.
End Trees.

Section Ensembles.
Context {N : num}.
Implicit Types e : ensemble N.

Lemma rep_range e t : represents e t -> 0 <= mark t < Z.of_nat (length (e_left e)).
Proof. destruct t; cbn [represents mark]; intros (H & _); eapply zget_range; eauto. Qed.

Lemma rep_det e t1 : forall t2, represents e t1 -> represents e t2 -> mark t1 = mark t2 -> t1 = t2.
Proof.
  induction t1 as [i v|i f thr l IHl r IHr]; intros [j w|j g u l' r'] H1 H2 E; cbn [mark] in E; subst j;
    cbn [represents] in H1, H2.
  - destruct H1 as (_ & _ & _ & H1), H2 as (_ & _ & _ & H2). congruence.
  - destruct H1 as (H1 & _), H2 as (H2 & _ & _ & _ & Hl & _). apply rep_range in Hl. rewrite H1 in H2. injection H2. lia.
  - destruct H2 as (H2 & _), H1 as (H1 & _ & _ & _ & Hl & _). apply rep_range in Hl. rewrite H1 in H2. injection H2. lia.
  - destruct H1 as (A1 & A2 & A3 & A4 & A5 & A6), H2 as (B1 & B2 & B3 & B4 & B5 & B6).
    rewrite (IHl l'), (IHr r'); auto; congruence.
Qed.

Lemma rep_sub e t : represents e t -> forall j, In j (marks t) ->
  exists t', represents e t' /\ mark t' = j /\ (size t' <= size t)%nat.
Proof.
  induction t as [i v|i f thr l IHl r IHr]; cbn [marks In]; intros H j Hj.
  - destruct Hj as [<-|[]]. exists (Leaf i v). split; [exact H|]. split; [reflexivity|lia].
  - destruct Hj as [<-|Hj]; [exists (Node i f thr l r); split; [exact H|]; split; [reflexivity|lia]|].
    cbn [represents] in H. destruct H as (_ & _ & _ & _ & Hl & Hr). cbn [size].
    apply in_app_or in Hj as [Hj|Hj].
    + destruct (IHl Hl j Hj) as (t' & ? & ? & ?). exists t'. repeat split; auto. lia.
    + destruct (IHr Hr j Hj) as (t' & ? & ? & ?). exists t'. repeat split; auto. lia.
Qed.

(** A longest path. *)
Fixpoint deep (t : tree Z N) : list Z :=
  match t with
  | Leaf i _ => [i]
  | Node i _ _ l r => i :: (if Nat.leb (height r) (height l) then deep l else deep r)
  end.
Lemma deep_length t : length (deep t) = S (height t).
Proof.
  induction t as [|i f thr l IHl r IHr]; [reflexivity|]. cbn [deep height length].
  destruct (Nat.leb (height r) (height l)) eqn:E; [apply Nat.leb_le in E|apply Nat.leb_gt in E]; lia.
Qed.
Lemma deep_marks t j : In j (deep t) -> In j (marks t).
Proof.
  induction t as [|i f thr l IHl r IHr]; [auto|]. cbn [deep marks]. intros [<-|H]; [left; reflexivity|right].
  apply in_or_app. destruct (Nat.leb (height r) (height l)); auto.
Qed.
Lemma deep_nodup e t : represents e t -> NoDup (deep t).
Proof.
  induction t as [i v|i f thr l IHl r IHr]; intros H.
  - constructor; [intros []|constructor].
  - pose proof H as (_ & _ & _ & _ & Hl & Hr).
    assert (Hn : forall c, (c = l \/ c = r) -> represents e c -> ~ In i (marks c)).
    { intros c Hc Hrc Hi. destruct (rep_sub e c Hrc i Hi) as (t' & H1 & H2 & H3).
      assert (E : t' = Node i f thr l r) by (apply (rep_det e); [exact H1|exact H|exact H2]).
      subst t'. cbn [size] in H3. destruct Hc as [->| ->]; lia. }
    cbn [deep]. destruct (Nat.leb (height r) (height l)).
    + constructor; [|auto]. intros Hi. apply deep_marks in Hi. exact (Hn l (or_introl eq_refl) Hl Hi).
    + constructor; [|auto]. intros Hi. apply deep_marks in Hi. exact (Hn r (or_intror eq_refl) Hr Hi).
Qed.
Lemma height_bound e t : represents e t -> (height t < length (e_left e))%nat.
Proof.
  intros H.
  assert (Hincl : incl (deep t) (zrange 0 (Z.of_nat (length (e_left e))))).
  { intros j Hj. apply deep_marks in Hj. destruct (rep_sub e t H j Hj) as (t' & H1 & <- & _).
    apply in_zrange. apply rep_range. exact H1. }
  pose proof (NoDup_incl_length (deep_nodup e t H) Hincl) as Hl.
  rewrite deep_length, zrange_length in Hl. lia.
Qed.

(** ** The walk *)
Lemma exit_value e row t : represents e t ->
  zget (e_value e) (fst (exit_leaf row t)) = Some (snd (exit_leaf row t)).
Proof.
  induction t as [i v|i f thr l IHl r IHr]; cbn [represents exit_leaf fst snd].
  - intros (_ & _ & _ & H). exact H.
  - intros (_ & _ & _ & _ & Hl & Hr). destruct (nleb _ thr); auto.
Qed.
Lemma walk_ok e row t : represents e t ->
  Forall (fun f => 0 <= f < Z.of_nat (length row)) (splits t) ->
  forall fuel, (height t < fuel)%nat -> walk fuel e row (mark t) = Ok (fst (exit_leaf row t)).
Proof.
  induction t as [i v|i f thr l IHl r IHr]; intros H Hf fuel Hfuel; (destruct fuel as [|fuel]; [cbn [height] in Hfuel; lia|]).
  - cbn [represents] in H. destruct H as (H1 & _). cbn [walk mark]. rewrite (mem_get_zget _ _ _ H1). reflexivity.
  - cbn [represents] in H. destruct H as (H1 & H2 & H3 & H4 & Hl & Hr).
    cbn [splits] in Hf. inversion Hf as [|? ? Hf0 Hf']; subst. apply Forall_app in Hf' as [Hfl Hfr].
    cbn [height] in Hfuel. cbn [walk mark exit_leaf].
    pose proof (rep_range e l Hl) as Rl. pose proof (rep_range e r Hr) as Rr.
    rewrite (mem_get_zget _ _ _ H1), (mem_get_zget _ _ _ H2), (mem_get_zget _ _ _ H3), (mem_get_zget _ _ _ H4).
    cbn [bind]. replace (mark l =? -1) with false by (symmetry; apply Z.eqb_neq; lia).
    replace (mark r =? -1) with false by (symmetry; apply Z.eqb_neq; lia).
    rewrite (mem_get_zget _ _ _ (zget_some_nth row f nzero Hf0)). cbn [bind].
    destruct (nleb _ thr).
    + apply IHl; auto. lia.
    + apply IHr; auto. lia.
Qed.

Lemma encodes_root e ts ws i t : encodes e ts ws -> nth_error ts i = Some t ->
  represents e t /\ zget (e_root e) (Z.of_nat i) = Some (mark t).
Proof.
  intros (_ & Hr & _ & _ & Hf) Hi. split.
  - rewrite Forall_forall in Hf. apply Hf. eapply nth_error_In; eauto.
  - rewrite zget_nth, Hr. apply map_nth_error. exact Hi.
Qed.
Lemma exit_node_ok e ts ws row i t : encodes e ts ws -> covers row ts -> nth_error ts i = Some t ->
  exit_node e row (Z.of_nat i) = Ok (fst (exit_leaf row t)).
Proof.
  intros He Hc Hi. destruct (encodes_root e ts ws i t He Hi) as [Ht Hroot].
  unfold exit_node. rewrite (mem_get_zget _ _ _ Hroot). cbn [bind].
  apply walk_ok; [exact Ht| |].
  - unfold covers in Hc. rewrite Forall_forall in Hc. apply Hc. eapply nth_error_In; eauto.
  - pose proof (height_bound e t Ht). lia.
Qed.
Lemma leaf_score_ok e ts ws row i t w : encodes e ts ws -> nth_error ts i = Some t -> nth_error ws i = Some w ->
  leaf_score e (Z.of_nat i) (fst (exit_leaf row t)) = Ok (nf32 (nmul (snd (exit_leaf row t)) w)).
Proof.
  intros He Hi Hw. destruct (encodes_root e ts ws i t He Hi) as [Ht _].
  destruct He as (_ & _ & Hws & _ & _). unfold leaf_score.
  rewrite (mem_get_zget _ _ _ (exit_value e row t Ht)). cbn [bind].
  assert (E : zget (e_weight e) (Z.of_nat i) = Some w) by (rewrite zget_nth, Hws; exact Hw).
  rewrite (mem_get_zget _ _ _ E). reflexivity.
Qed.

Lemma combine_nth_error {A B} (l : list A) (l' : list B) i a b :
  nth_error l i = Some a -> nth_error l' i = Some b -> nth_error (combine l l') i = Some (a, b).
Proof.
  revert l' i. induction l as [|x l IH]; intros [|y l'] [|i] H1 H2; try discriminate; cbn in *.
  - congruence.
  - auto.
Qed.
Lemma nth_error_combine {A B} (l : list A) (l' : list B) i p :
  nth_error (combine l l') i = Some p -> nth_error l i = Some (fst p) /\ nth_error l' i = Some (snd p).
Proof.
  revert l' i. induction l as [|x l IH]; intros [|y l'] [|i] H; try discriminate; cbn in *.
  - injection H as <-. auto.
  - auto.
Qed.

Lemma score_instance_ok e ts ws row : encodes e ts ws -> covers row ts ->
  score_instance e row = Ok (ensemble_score ws ts row).
Proof.
  intros He Hc. unfold score_instance. pose proof He as (En & _ & _ & El & _).
  assert (Elen : length (combine ws ts) = length ts) by (rewrite combine_length, El; lia).
  rewrite En, <- Elen.
  rewrite (foldM_zrange (combine ws ts) _
             (fun y p => nf32 (nadd y (nf32 (nmul (snd (exit_leaf row (snd p))) (fst p)))))).
  - unfold ensemble_score, tree_scores. f_equal.
    clear Elen. generalize (@nzero N) as z. induction (combine ws ts) as [|p l IH]; intros z; [reflexivity|].
    cbn [map fold_left]. apply IH.
  - intros i [w t] c Hi. apply nth_error_combine in Hi as [Hw Ht]. cbn [fst snd] in *.
    rewrite (exit_node_ok e ts ws row i t He Hc Ht). cbn [bind].
    rewrite (leaf_score_ok e ts ws row i t w He Ht Hw). reflexivity.
Qed.

Lemma mapM_ok {A B} (f : A -> res B) g l : (forall x, In x l -> f x = Ok (g x)) -> mapM f l = Ok (map g l).
Proof.
  induction l as [|x l IH]; intros H; [reflexivity|]. cbn [mapM map].
  rewrite (H x) by (left; reflexivity). cbn [bind]. rewrite IH; [reflexivity|]. intros y Hy. apply H. right. exact Hy.
Qed.

Theorem C31_lemma e ts ws X : encodes e ts ws -> (forall row, In row X -> covers row ts) ->
  basic_scoring e X = Ok (map (ensemble_score ws ts) X).
Proof.
  intros He Hc. unfold basic_scoring. apply mapM_ok. intros row Hr. apply score_instance_ok; auto.
Qed.

Theorem C32_lemma e ts ws X : encodes e ts ws -> (forall row, In row X -> covers row ts) ->
  detailed_scoring e X
  = Ok (map (fun row => map (fun t => fst (exit_leaf row t)) ts) X, map (tree_scores ws ts) X).
Proof.
  intros He Hc. unfold detailed_scoring. pose proof He as (En & _ & _ & El & _).
  replace (e_ntrees e <? 0) with false by (symmetry; apply Z.ltb_ge; lia).
  rewrite (mapM_ok _ (fun row => map (fun p => (fst (exit_leaf row (snd p)), nf32 (nmul (snd (exit_leaf row (snd p))) (fst p))))
                                     (combine ws ts))).
  - cbn [bind]. rewrite !map_map.
    rewrite (map_ext (fun row => map fst _) (fun row => map (fun t => fst (exit_leaf row t)) ts)).
    + do 2 f_equal. apply map_ext. intros row. rewrite map_map. reflexivity.
    + intros row. rewrite map_map. cbn [fst]. clear - El. revert ts El.
      induction ws as [|w ws IH]; intros [|t ts] El; try discriminate; [reflexivity|].
      cbn [combine map fst snd]. f_equal. apply IH. cbn in El. lia.
  - intros row Hr. unfold detail_instance.
    assert (Elen : length (combine ws ts) = length ts) by (rewrite combine_length, El; lia).
    rewrite En, <- Elen. apply mapM_zrange. intros i [w t] Hi. apply nth_error_combine in Hi as [Hw Ht].
    cbn [fst snd] in *. rewrite (exit_node_ok e ts ws row i t He (Hc row Hr) Ht). cbn [bind].
    rewrite (leaf_score_ok e ts ws row i t w He Ht Hw). reflexivity.
Qed.
End Ensembles.
