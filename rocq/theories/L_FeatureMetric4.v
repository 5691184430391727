(** Proofs about feature importance with an arbitrary metric: the squared error, in real arithmetic. *)
From Coq Require Import List ZArith Bool Lia Lra Reals Permutation Arith.
From Verif Require Import Base Num Lists M_Dataset M_Ensemble S_Ensemble L_Ensemble L_Ensemble2 M_Effectiveness S_Feature L_Loaders M_Feature L_Feature2 L_Feature3 L_Feature4 L_Feature5
  M_FeatureMetric S_FeatureMetric L_FeatureMetric L_FeatureMetric2 L_FeatureMetric3.
Import ListNotations.
Local Open Scope R_scope.

Lemma share_eq (a b c d n : R) : (a + b) / n - (c + d + b) / n = (a - c - d) / n.
Proof. unfold Rdiv. ring. Qed.
Ltac real_eq := match goal with |- ?a = ?b => change (@eq R a b) end.
Lemma decides_R : decides RE.
Proof. intros a b. cbn. unfold Rltb, Rleb. destruct (Rlt_dec a b), (Rle_dec b a); try reflexivity; exfalso; lra. Qed.

Section Squares.
Variable rows : list (list RE).
Notation n := (length rows).
Notation all := (zrange 0 (Z.of_nat n)).
Variable sum : list RE -> RE.
Hypothesis Hsum : forall l, sum l = Rtotal l.

Lemma average_mean (y : Z -> RE) M : average sum y M = mean y M.
Proof. unfold average, mean, nofnat. rewrite Hsum, INR_IZR_INZ. reflexivity. Qed.

Lemma sides_perm f thr (M : list Z) : Permutation M (lefts (N:=RE) rows f thr M ++ rights rows f thr M).
Proof.
  unfold lefts, rights. induction M as [|i M IH]; [constructor|]. cbn [filter]. destruct (goes_left rows f thr i); cbn [negb app].
  - constructor. exact IH.
  - apply Permutation_cons_app. exact IH.
Qed.
Lemma filter_nodup {A} (g : A -> bool) l : NoDup l -> NoDup (filter g l).
Proof. apply NoDup_filter. Qed.
Lemma nodes_nodup : forall k (t : tree Z RE) M q, NoDup M -> In q (nodes_at rows k t M) -> NoDup (snd q).
Proof.
  induction k as [|k IH]; intros [i v|i f thr l r] M q ND H; try contradiction.
  - destruct H as [<-|[]]. exact ND.
  - cbn [nodes_at] in H. apply in_app_or in H. destruct H as [H|H]; apply IH in H; try exact H; apply NoDup_filter, ND.
Qed.
Lemma nodes_self : forall k (t : tree Z RE) M q j, In q (nodes_at rows k t M) -> In j (snd q) -> group rows k t M j = snd q.
Proof.
  induction k as [|k IH]; intros [i v|i f thr l r] M q j H Hj; try contradiction.
  - destruct H as [<-|[]]. reflexivity.
  - cbn [nodes_at] in H. cbn [group]. apply in_app_or in H. destruct H as [H|H]; pose proof (nodes_docs _ _ _ _ _ H _ Hj) as D; apply filter_In in D; destruct D as [_ D].
    + rewrite D. apply (IH _ _ _ _ H Hj).
    + apply negb_true_iff in D. rewrite D. apply (IH _ _ _ _ H Hj).
Qed.

Variable value : list RE -> RE.
Variable labels : Z -> R.
Hypothesis Hvalue : forall s, value (map s all) = sse labels s all / INR n.

Lemma predicted_mean t y k i : predicted sum rows t y k i = mean y (match k with O => all | _ => group rows k t all i end).
Proof. destruct k; cbn [predicted]; [apply average_mean|]. change (average sum y (group rows (S k) t all i) = mean y (group rows (S k) t all i)). apply average_mean. Qed.

Lemma sse_shift (y p g : Z -> R) M : (forall i, y i = labels i - p i) -> sse labels (fun i => g i + p i) M = sse y g M.
Proof. intros H. unfold sse. apply Rtotal_ext. intros i _. rewrite H. ring. Qed.

Lemma change_gain (t : tree Z RE) (y p : Z -> R) k v : (forall i, y i = labels i - p i) -> In v (splits_at rows k t all) -> change sum rows value t y p k v = gain y v / INR n.
Proof.
  intros Hp Hv. rewrite splits_at_data in Hv. apply in_map_iff in Hv. destruct Hv as [q [Ev Hq]].
  assert (ND : NoDup (snd q)) by (apply (nodes_nodup k t all q (zrange_nodup _ _) Hq)). pose proof (nodes_docs _ _ _ _ _ Hq) as HI. 
  assert (HS : is_split (fst q) = true).
  { clear - Hq. revert Hq. generalize all as M. revert t. induction k as [|k IH]; intros [|i f thr l r] M H; try contradiction; [destruct H as [<-|[]]; reflexivity|].
    cbn [nodes_at] in H. apply in_app_or in H. destruct H as [H|H]; apply (IH _ _ H). }
  destruct q as [u M]. cbn [fst snd] in *. destruct u as [|i f thr l r]; [discriminate|]. unfold data in Ev. cbn [fst snd] in Ev. subst v.
  set (L := lefts rows f thr M) in *. set (R := rights rows f thr M) in *.
  unfold change. change (@nsub RE) with Rminus. change (@nadd RE) with Rplus.
  rewrite !Hvalue, (sse_shift y p _ _ Hp), (sse_shift y p _ _ Hp).
  assert (S1 : exists O, Permutation all (M ++ O) /\ forall i, In i O -> ~ In i M).
  { exists (filter (fun i => negb (existsb (Z.eqb i) M)) all). split.
    - assert (P : Permutation all (filter (fun i => existsb (Z.eqb i) M) all ++ filter (fun i => negb (existsb (Z.eqb i) M)) all)).
      { clear. induction all as [|a l IH]; [constructor|]. cbn [filter]. destruct (existsb _ M); cbn [negb app]; [constructor; exact IH|apply Permutation_cons_app, IH]. }
      eapply perm_trans; [exact P|]. apply Permutation_app_tail. apply NoDup_Permutation; [apply NoDup_filter, zrange_nodup|exact ND|].
      intros x. rewrite filter_In, existsb_in. split; [tauto|]. intros Hx. split; [apply HI, Hx|exact Hx].
    - intros j Hj. apply filter_In in Hj. destruct Hj as [_ Hj]. apply negb_true_iff in Hj. apply existsb_out. exact Hj. }
  destruct S1 as [O [PO HO]]. rewrite !(sse_perm y _ _ _ PO), !sse_app.
  assert (E1 : sse y (fun i => nf32 (predicted sum rows t y k i)) M = sse_mean y M).
  { unfold sse_mean. apply sse_ext. intros j Hj. change (predicted sum rows t y k j = mean y M). rewrite predicted_mean.
    pose proof (nodes_self k t all _ j Hq Hj) as G. cbn [snd] in G. destruct k; [|rewrite G; reflexivity].
    cbn [group] in G. destruct t; rewrite G; reflexivity. }
  assert (IN : forall j, In j M <-> In j L \/ In j R).
  { intros j. unfold L, R, lefts, rights. rewrite !filter_In. destruct (goes_left rows f thr j); cbn [negb]; intuition congruence. }
  assert (E2 : sse y (fun i => refined sum rows t y k (f, L, R) i) O = sse y (fun i => nf32 (predicted sum rows t y k i)) O).
  { apply sse_ext. intros j Hj. apply HO in Hj. unfold refined. cbn [fst snd].
    assert (A : existsb (Z.eqb j) L = false) by (apply existsb_out; intros C; apply Hj, IN; auto).
    assert (B : existsb (Z.eqb j) R = false) by (apply existsb_out; intros C; apply Hj, IN; auto). rewrite A, B. reflexivity. }
  assert (E3 : sse y (fun i => refined sum rows t y k (f, L, R) i) M = sse_mean y L + sse_mean y R).
  { rewrite (sse_perm y _ _ _ (sides_perm f thr M)), sse_app. fold L R. f_equal; unfold sse_mean; apply sse_ext; intros j Hj; unfold refined; cbn [fst snd].
    - rewrite (proj2 (existsb_in j L) Hj). change (average sum y L = mean y L). apply average_mean.
    - assert (A : existsb (Z.eqb j) L = false).
      { apply existsb_out. intros C. apply filter_In in C, Hj. destruct C as [_ C], Hj as [_ Hj]. rewrite C in Hj. discriminate. }
      rewrite A, (proj2 (existsb_in j R) Hj). change (average sum y R = mean y R). apply average_mean. }
  change (fun i => refined sum rows t y k (f, L, R) i) with (refined sum rows t y k (f, L, R)) in E2, E3. rewrite E1, E2, E3. unfold gain. cbn [fst snd]. pose proof (sse_mean_perm y _ _ (sides_perm f thr M)) as PP. fold L R in PP. rewrite PP. apply share_eq.
Qed.

(** A split reached by one instance at most changes nothing. *)
Lemma lone_mean (y : Z -> R) M : (length M < 2)%nat -> sse_mean y M = 0.
Proof.
  intros H. destruct M as [|i [|j M]]; [reflexivity| |cbn in H; lia]. rewrite sse_mean_eq. cbn [map length INR]. unfold mean. cbn [map length INR].
  rewrite !Rtotal_cons. change (Rtotal []) with 0. field.
Qed.
Lemma lone_gain (y : Z -> R) v : (length (snd (fst v) ++ snd v) < 2)%nat -> gain y v = 0.
Proof. intros H. unfold gain. rewrite app_length in H. rewrite !lone_mean by (rewrite ?app_length; lia). lra. Qed.

Definition levels (t : tree Z RE) (h : nat) M := concat (map (fun k => splits_at rows k t M) (seq 0 h)).
Lemma levels_leaf i v h M : levels (Leaf i v) h M = [].
Proof. unfold levels. induction (seq 0 h) as [|[|k] q IH]; try reflexivity; exact IH. Qed.
Lemma levels_node i f thr l r h M : Permutation (levels (Node i f thr l r) (S h) M) ((f, lefts rows f thr M, rights rows f thr M) :: levels l h (lefts rows f thr M) ++ levels r h (rights rows f thr M)).
Proof.
  unfold levels. cbn [seq map concat splits_at app]. constructor. rewrite <- seq_shift, map_map. cbn [splits_at]. apply concat_app2.
Qed.
Lemma gains_perm y f v v' : Permutation v v' -> gains_of y f v = gains_of y f v'.
Proof. intros P. unfold gains_of. apply Rtotal_perm, Permutation_map, Permutation_filter, P. Qed.

Lemma lone_levels y f : forall t h M, (height t <= h)%nat -> (length M < 2)%nat -> gains_of y f (levels t h M) = 0.
Proof.
  induction t as [i v|i g thr l IHl r IHr]; intros h M Hh HM; [rewrite levels_leaf; reflexivity|]. cbn [height] in Hh. destruct h as [|h]; [lia|].
  pose proof (Permutation_length (sides_perm g thr M)) as P. rewrite app_length in P.
  rewrite (gains_perm y f _ _ (levels_node i g thr l r h M)), gains_cons, gains_app, IHl, IHr by lia.
  rewrite lone_gain; [destruct (Z.eqb _ _); lra|]. cbn [fst snd]. rewrite app_length. lia.
Qed.
Lemma levels_visited y f : forall t h M, (height t <= h)%nat -> gains_of y f (levels t h M) = gains_of y f (visited rows t M).
Proof.
  induction t as [i v|i g thr l IHl r IHr]; intros h M Hh; [rewrite levels_leaf; reflexivity|]. cbn [height] in Hh. destruct h as [|h]; [lia|].
  rewrite (gains_perm y f _ _ (levels_node i g thr l r h M)). cbn [visited]. rewrite !gains_cons, !gains_app. f_equal. f_equal.
  - destruct (Nat.leb_spec 2 (length (lefts rows g thr M))); [apply IHl; lia|]. rewrite lone_levels by lia. reflexivity.
  - destruct (Nat.leb_spec 2 (length (rights rows g thr M))); [apply IHr; lia|]. rewrite lone_levels by lia. reflexivity.
Qed.

Lemma group_mates : forall (t : tree Z RE) k M j, (height t <= k)%nat -> NoDup (marks t) -> In j M -> Permutation (group rows k t M j) (leaf_mates rows t j M).
Proof.
  induction t as [i v|i f thr l IHl r IHr]; intros k M j Hk ND Hj.
  - replace (group rows k (Leaf i v) M j) with M by (destruct k; reflexivity). unfold leaf_mates. cbn [exit_leaf fst].
    rewrite (filter_ext_in _ (fun _ => true)); [|intros; apply Z.eqb_refl]. clear. induction M; [constructor|cbn; constructor; assumption].
  - cbn [height] in Hk. destruct k as [|k]; [lia|]. cbn [group].
    destruct (mates_node rows i f thr l r j (lefts rows f thr M) (rights rows f thr M) ND) as [ML MR].
    { intros x Hx. apply filter_In in Hx. apply Hx. } { intros x Hx. apply filter_In in Hx. apply negb_true_iff, Hx. }
    pose proof (mates_perm rows (Node i f thr l r) j _ _ (sides_perm f thr M)) as P.
    cbn [marks] in ND. inversion ND as [|? ? _ ND']. subst. apply NoDup_app_inv in ND'. destruct ND' as (N1 & N2 & _).
    destruct (goes_left rows f thr j) eqn:G.
    + rewrite (ML eq_refl) in P. eapply perm_trans; [|apply Permutation_sym, P]. apply IHl; [lia|exact N1|apply filter_In; auto].
    + rewrite (MR eq_refl) in P. eapply perm_trans; [|apply Permutation_sym, P]. apply IHr; [lia|exact N2|apply filter_In; rewrite G; auto].
Qed.

Lemma credited_total f (l : list (Z * RE)) : credited (N:=RE) f l = Rtotal (map snd (filter (fun q => Z.eqb (fst q) f) l)).
Proof.
  unfold credited. assert (G : forall (v : list R) a, fold_left (fun a v => nf32 (n:=RE) (nadd a v)) v a = a + Rtotal v).
  { induction v as [|x v IH]; intros a; cbn [fold_left]; [change (Rtotal []) with 0; lra|]. rewrite IH, Rtotal_cons. change (nf32 (n:=RE) (nadd a x)) with (a + x). lra. }
  rewrite G. change (@nzero RE) with 0. lra.
Qed.
Lemma credited_app f a b : credited (N:=RE) f (a ++ b) = credited (N:=RE) f a + credited (N:=RE) f b.
Proof. rewrite !credited_total, filter_app, map_app. apply Rtotal_app. Qed.
Lemma changes_gains f t (y p : Z -> R) : (forall i, y i = labels i - p i) -> credited (N:=RE) f (changes sum rows value t y p) = gains_of y f (visited rows t all) / INR n.
Proof.
  intros Hp. rewrite <- (levels_visited y f t (height t) all (le_n _)). unfold changes, levels, gains_of. rewrite credited_total.
  induction (seq 0 (height t)) as [|k q IH]; [cbn; unfold Rdiv; real_eq; ring|]. cbn [map concat]. rewrite !filter_app, !map_app, !Rtotal_app, IH. unfold Rdiv. rewrite Rmult_plus_distr_r. f_equal.
  assert (H : forall v, In v (splits_at rows k t all) -> change sum rows value t y p k v = gain y v / INR n) by (intros v; apply change_gain; exact Hp).
  induction (splits_at rows k t all) as [|v l IHl]; [cbn; real_eq; ring|]. cbn [map filter fst]. destruct (Z.eqb (fst (fst v)) f).
  - cbn [map snd]. rewrite !Rtotal_cons, IHl by (intros; apply H; right; assumption). rewrite (H v) by (left; reflexivity). unfold Rdiv. real_eq. ring.
  - apply IHl. intros; apply H; right; assumption.
Qed.

Lemma all_gains f : forall ts ws (p y : Z -> R), length ws = length ts -> Forall (fun t => NoDup (marks t)) ts -> Forall (fun t => is_split t = true) ts -> (forall i, In i all -> y i = labels i - p i) ->
  credited (N:=RE) f (all_changes sum rows value labels ws ts p) =
  Rtotal (map (fun q => gains_of (snd q) f (visited rows (fst q) all)) (combine ts (residuals rows all ws ts y))) / INR n.
Proof.
  induction ts as [|t ts IH]; intros [|w ws] p y HL HN HS Hp; try discriminate; [cbn; unfold Rdiv; real_eq; ring|].
  inversion HN as [|? ? N1 N2]. inversion HS as [|? ? S1 S2]. subst. cbn [all_changes residuals combine map fst snd]. rewrite credited_app, Rtotal_cons.
  set (y0 := fun i => @nsub RE (labels i) (p i)).
  rewrite (changes_gains f t y0 p) by reflexivity. rewrite (IH ws _ (fun i => y i - w * mean y (leaf_mates rows t i all))).
  - rewrite (gains_ext rows y0 y f t all) by (intros i Hi; rewrite (Hp i Hi); reflexivity). unfold Rdiv. real_eq. ring.
  - injection HL as HL. exact HL.
  - exact N2.
  - exact S2.
  - intros i Hi. rewrite (Hp i Hi), predicted_mean. assert (E : mean y0 (match height t with O => all | _ => group rows (height t) t all i end) = mean y (leaf_mates rows t i all)).
    { destruct t as [|a g thr l r]; [discriminate|]. set (T := Node a g thr l r) in *. change (match height T with O => all | _ => group rows (height T) T all i end) with (group rows (height T) T all i).
      rewrite (mean_perm y0 _ _ (group_mates T (height T) all i (le_n _) N1 Hi)). apply mean_ext. intros j Hj. apply filter_In in Hj. rewrite (Hp j (proj1 Hj)). reflexivity. }
    rewrite E. change (labels i - p i - w * mean y (leaf_mates rows t i all) = labels i - (p i + mean y (leaf_mates rows t i all) * w)). real_eq. ring.
Qed.
End Squares.
