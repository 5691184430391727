(** Proofs about feature importance with an arbitrary metric: one tree. *)
From Coq Require Import List ZArith Bool Lia Permutation Arith.
From Verif Require Import Base Num Lists M_Dataset M_Ensemble S_Ensemble L_Ensemble L_Ensemble2 M_Effectiveness S_Feature L_Feature2 L_Feature3 M_FeatureMetric S_FeatureMetric.
Import ListNotations.
Local Open Scope Z_scope.

Lemma existsb_in i l : existsb (Z.eqb i) l = true <-> In i l.
Proof.
  rewrite existsb_exists. split.
  - intros [x [H E]]. apply Z.eqb_eq in E. subst. exact H.
  - intros H. exists i. split; [exact H|]. apply Z.eqb_refl.
Qed.
Lemma existsb_out i l : existsb (Z.eqb i) l = false <-> ~ In i l.
Proof. rewrite <- existsb_in. destruct (existsb (Z.eqb i) l); split; intros; try congruence; exfalso; auto. Qed.

Lemma py_set_range {A} (l : list A) i v : 0 <= i < Z.of_nat (length l) -> py_set l i v = Ok (upd l (Z.to_nat i) v).
Proof.
  intros H. unfold py_set. destruct (Z.ltb_spec i 0); [lia|]. rewrite (proj2 (Z.ltb_ge i 0)) by lia. rewrite (proj2 (Z.leb_gt _ _)) by lia. reflexivity.
Qed.
Lemma py_get_range {A} (l : list A) i d : 0 <= i < Z.of_nat (length l) -> py_get l i = Ok (nth (Z.to_nat i) l d).
Proof. intros H. apply py_get_zget, zget_some_nth, H. Qed.

Section Images.
Context {N : Num.num}.
Variable sum : list N -> N.
Variable n : nat.
Notation all := (zrange 0 (Z.of_nat n)).
Definition img (g : Z -> N) : list N := map g all.
Lemma img_length g : length (img g) = n.
Proof. unfold img. rewrite map_length, zrange_length. lia. Qed.
Lemma img_ext g h : (forall i, In i all -> g i = h i) -> img g = img h.
Proof. intros H. apply map_ext_in. exact H. Qed.
Lemma img_nth g i d : In i all -> nth (Z.to_nat i) (img g) d = g i.
Proof.
  intros H. apply in_zrange in H. unfold img. rewrite zrange_seq, map_map. apply nth_error_nth. rewrite nth_error_map'.
  rewrite nth_error_seq. destruct (Nat.ltb_spec (Z.to_nat i) n); [|lia]. cbn [option_map]. f_equal. f_equal. lia.
Qed.
Lemma list_img (l : list N) : length l = n -> l = img (fun i => nth (Z.to_nat i) l nzero).
Proof.
  intros H. apply (nth_ext _ _ nzero nzero); [rewrite img_length; exact H|]. intros k Hk.
  rewrite <- (Nat2Z.id k) at 2. rewrite img_nth by (apply in_zrange; lia). rewrite Nat2Z.id. reflexivity.
Qed.
Lemma img_get g i : In i all -> py_get (img g) i = Ok (g i).
Proof. intros H. rewrite (py_get_range _ _ nzero) by (rewrite img_length; apply in_zrange; exact H). rewrite img_nth by exact H. reflexivity. Qed.
Lemma img_set g i v : In i all -> py_set (img g) i v = Ok (img (fun j => if j =? i then v else g j)).
Proof.
  intros H. rewrite py_set_range by (rewrite img_length; apply in_zrange; exact H). f_equal.
  apply (nth_ext _ _ nzero nzero); [rewrite upd_length, !img_length; reflexivity|].
  intros k Hk. rewrite upd_length, img_length in Hk. rewrite nth_upd, img_length. apply in_zrange in H.
  assert (K : In (Z.of_nat k) all) by (apply in_zrange; lia).
  replace k with (Z.to_nat (Z.of_nat k)) at 3 4 by apply Nat2Z.id. rewrite !img_nth by exact K.
  destruct (Nat.eqb_spec (Z.to_nat i) k) as [E|E]; destruct (Z.eqb_spec (Z.of_nat k) i) as [E'|E']; try lia.
  - destruct (Nat.ltb_spec k n); [reflexivity|lia].
  - reflexivity.
Qed.
Lemma set_all c : forall docs g, incl docs all -> foldM (fun a i => py_set a i c) docs (img g) = Ok (img (fun j => if existsb (Z.eqb j) docs then c else g j)).
Proof.
  induction docs as [|i docs IH]; intros g H; [reflexivity|]. cbn [foldM]. rewrite img_set by (apply H; left; reflexivity). cbn [bind].
  rewrite IH by (intros x Hx; apply H; right; exact Hx). f_equal. apply img_ext. intros j _. cbn [existsb]. destruct (j =? i), (existsb (Z.eqb j) docs); reflexivity.
Qed.
Lemma copy_all h : forall docs g, incl docs all ->
  foldM (fun a i => do v <- py_get (img h) i; py_set a i v) docs (img g) = Ok (img (fun j => if existsb (Z.eqb j) docs then h j else g j)).
Proof.
  induction docs as [|i docs IH]; intros g H; [reflexivity|]. cbn [foldM]. rewrite img_get by (apply H; left; reflexivity). cbn [bind].
  rewrite img_set by (apply H; left; reflexivity). cbn [bind].
  rewrite IH by (intros x Hx; apply H; right; exact Hx). f_equal. apply img_ext. intros j _. cbn [existsb].
  destruct (Z.eqb_spec j i) as [->|]; destruct (existsb _ docs); reflexivity.
Qed.
Lemma vec_img op g h : vec op (img g) (img h) = img (fun i => op (g i) (h i)).
Proof. unfold vec, img. induction all as [|x l IH]; [reflexivity|]. cbn [map combine fst snd]. rewrite IH. reflexivity. Qed.
Lemma map_img op g : map op (img g) = img (fun i => op (g i)).
Proof. unfold img. rewrite map_map. reflexivity. Qed.
Lemma repeat_img c : repeat c n = img (fun _ => c).
Proof. rewrite (list_img (repeat c n)) by apply repeat_length. apply img_ext. intros i Hi. apply in_zrange in Hi.
  rewrite (nth_indep _ _ c) by (rewrite repeat_length; lia). apply nth_repeat. Qed.

Lemma set_mean_ok y docs g : incl docs all ->
  set_mean sum (img y) docs (img g) = Ok (img (fun j => if existsb (Z.eqb j) docs then nf32 (average sum y docs) else g j)).
Proof.
  intros H. unfold set_mean. destruct docs as [|i docs]; [reflexivity|]. set (D := i :: docs) in *.
  rewrite (mapM_ok _ y D) by (intros x Hx; apply img_get, H, Hx). cbn [bind]. rewrite set_all by exact H. unfold average. rewrite map_length. reflexivity.
Qed.
End Images.

Section Nodes.
Context {N : Num.num}.
Variable rows : list (list N).
(** The splits at depth [k] with their instances. *)
Fixpoint nodes_at (k : nat) (t : tree Z N) (M : list Z) : list (tree Z N * list Z) :=
  match t, k with
  | Leaf _ _, _ => []
  | Node _ _ _ _ _, O => [(t, M)]
  | Node _ f thr l r, S k' => nodes_at k' l (lefts rows f thr M) ++ nodes_at k' r (rights rows f thr M)
  end.
Definition data (p : tree Z N * list Z) : Z * list Z * list Z :=
  match fst p with Leaf _ _ => (0, [], []) | Node _ f thr _ _ => (f, lefts rows f thr (snd p), rights rows f thr (snd p)) end.
Definition children (p : tree Z N * list Z) : list (tree Z N * list Z) :=
  match fst p with
  | Leaf _ _ => []
  | Node _ f thr l r => nodes_at 0 l (lefts rows f thr (snd p)) ++ nodes_at 0 r (rights rows f thr (snd p))
  end.
Lemma splits_at_data : forall k t M, splits_at rows k t M = map data (nodes_at k t M).
Proof. induction k as [|k IH]; intros [i v|i f thr l r] M; try reflexivity. cbn [splits_at nodes_at]. rewrite map_app, !IH. reflexivity. Qed.
Lemma nodes_S : forall k t M, nodes_at (S k) t M = concat (map children (nodes_at k t M)).
Proof.
  induction k as [|k IH]; intros [i v|i f thr l r] M; try reflexivity.
  - cbn [nodes_at map concat]. rewrite app_nil_r. reflexivity.
  - change (nodes_at (S (S k)) (Node i f thr l r) M) with (nodes_at (S k) l (lefts rows f thr M) ++ nodes_at (S k) r (rights rows f thr M)).
    rewrite (IH l), (IH r). change (nodes_at (S k) (Node i f thr l r) M) with (nodes_at k l (lefts rows f thr M) ++ nodes_at k r (rights rows f thr M)). rewrite map_app, concat_app. reflexivity.
Qed.
Lemma nodes_empty : forall k t M, nodes_at k t M = [] <-> (height t <= k)%nat.
Proof.
  induction k as [|k IH]; intros [i v|i f thr l r] M; cbn [nodes_at height]; try (split; intros; [lia|reflexivity]).
  - split; [discriminate|lia].
  - split.
    + intros H. apply app_eq_nil in H. destruct H as [H1 H2]. apply IH in H1, H2. lia.
    + intros H. assert (A : nodes_at k l (lefts rows f thr M) = []) by (apply IH; lia). assert (B : nodes_at k r (rights rows f thr M) = []) by (apply IH; lia).
      rewrite A, B. reflexivity.
Qed.
Lemma lefts_incl f thr M : incl (lefts rows f thr M) M.
Proof. intros x H. apply filter_In in H. apply H. Qed.
Lemma rights_incl f thr M : incl (rights rows f thr M) M.
Proof. intros x H. apply filter_In in H. apply H. Qed.
Lemma nodes_docs : forall k t M p, In p (nodes_at k t M) -> incl (snd p) M.
Proof.
  induction k as [|k IH]; intros [i v|i f thr l r] M p H; try contradiction.
  - destruct H as [<-|[]]. apply incl_refl.
  - cbn [nodes_at] in H. apply in_app_or in H. destruct H as [H|H]; apply IH in H; eapply incl_tran; try exact H; [apply lefts_incl|apply rights_incl].
Qed.
Lemma nodes_group : forall k t M p i f thr l r j, In p (nodes_at k t M) -> fst p = Node i f thr l r -> In j (snd p) ->
  group rows (S k) t M j = if goes_left rows f thr j then lefts rows f thr (snd p) else rights rows f thr (snd p).
Proof.
  induction k as [|k IH]; intros [i' v|i' f' thr' l' r'] M p i f thr l r j H E Hj; try contradiction.
  - destruct H as [<-|[]]. cbn [fst] in E. injection E as -> -> -> -> ->. cbn [group snd]. destruct (goes_left rows f thr j); [destruct l|destruct r]; reflexivity.
  - cbn [nodes_at] in H. change (group rows (S (S k)) (Node i' f' thr' l' r') M j) with (if goes_left rows f' thr' j then group rows (S k) l' (lefts rows f' thr' M) j else group rows (S k) r' (rights rows f' thr' M) j).
    apply in_app_or in H. destruct H as [H|H].
    + pose proof (nodes_docs _ _ _ _ H j Hj) as G. apply filter_In in G. rewrite (proj2 G). apply (IH _ _ _ _ _ _ _ _ _ H E Hj).
    + pose proof (nodes_docs _ _ _ _ H j Hj) as G. apply filter_In in G. destruct G as [_ G]. apply negb_true_iff in G. rewrite G. apply (IH _ _ _ _ _ _ _ _ _ H E Hj).
Qed.
Lemma nodes_no_group : forall k t M j, In j M -> (forall p, In p (nodes_at k t M) -> ~ In j (snd p)) -> group rows (S k) t M j = group rows k t M j.
Proof.
  induction k as [|k IH]; intros [i' v|i' f' thr' l' r'] M j Hj H; try reflexivity.
  - exfalso. apply (H (Node i' f' thr' l' r', M)); [left; reflexivity|exact Hj].
  - change (group rows (S (S k)) (Node i' f' thr' l' r') M j) with (if goes_left rows f' thr' j then group rows (S k) l' (lefts rows f' thr' M) j else group rows (S k) r' (rights rows f' thr' M) j).
    change (group rows (S k) (Node i' f' thr' l' r') M j) with (if goes_left rows f' thr' j then group rows k l' (lefts rows f' thr' M) j else group rows k r' (rights rows f' thr' M) j).
    destruct (goes_left rows f' thr' j) eqn:G; apply IH.
    + apply filter_In. auto.
    + intros p Hp. apply H. cbn [nodes_at]. apply in_or_app. left. exact Hp.
    + apply filter_In. rewrite G. auto.
    + intros p Hp. apply H. cbn [nodes_at]. apply in_or_app. right. exact Hp.
Qed.
Lemma nodes_sub e (P : Z -> Prop) : forall k t M p, represents e t -> Forall P (splits t) -> In p (nodes_at k t M) ->
  exists i f thr l r, fst p = Node i f thr l r /\ represents e (fst p) /\ P f.
Proof.
  induction k as [|k IH]; intros [i v|i f thr l r] M p Hr Hs H; try contradiction.
  - destruct H as [<-|[]]. exists i, f, thr, l, r. split; [reflexivity|]. split; [exact Hr|]. inversion Hs. assumption.
  - cbn [nodes_at] in H. destruct Hr as (_ & _ & _ & _ & Hl & Hr). cbn [splits] in Hs. inversion Hs as [|? ? _ Hs']. apply Forall_app in Hs'.
    apply in_app_or in H. destruct H as [H|H]; [apply (IH l _ p Hl (proj1 Hs') H)|apply (IH r _ p Hr (proj2 Hs') H)].
Qed.

(** The splits of all the levels are those of the tree. *)
Lemma concat_app2 {A} (F G : nat -> list A) : forall l, Permutation (concat (map (fun k => F k ++ G k) l)) (concat (map F l) ++ concat (map G l)).
Proof.
  induction l as [|k l IH]; [constructor|]. cbn [map concat].
  transitivity ((F k ++ G k) ++ concat (map F l) ++ concat (map G l)); [apply Permutation_app_head, IH|].
  rewrite <- !app_assoc. apply Permutation_app_head. rewrite !app_assoc. apply Permutation_app_tail, Permutation_app_comm.
Qed.
Lemma levels_splits : forall t h M, (height t <= h)%nat ->
  Permutation (concat (map (fun k => map (fun v => fst (fst v)) (splits_at rows k t M)) (seq 0 h))) (splits t).
Proof.
  induction t as [i v|i f thr l IHl r IHr]; intros h M H.
  - replace (concat _) with (@nil Z); [constructor|]. induction (seq 0 h) as [|[|k] q IH]; try reflexivity; exact IH.
  - cbn [height] in H. destruct h as [|h]; [lia|]. cbn [seq map concat splits_at app splits fst]. constructor.
    rewrite <- seq_shift, map_map. cbn [splits_at].
    rewrite (map_ext _ (fun k => map (fun v => fst (fst v)) (splits_at rows k l (lefts rows f thr M)) ++ map (fun v => fst (fst v)) (splits_at rows k r (rights rows f thr M)))) by (intros k; apply map_app).
    etransitivity; [apply concat_app2|]. apply Permutation_app; [apply IHl|apply IHr]; lia.
Qed.
Lemma splits_size (t : tree Z N) : (length (splits t) < size t)%nat.
Proof. induction t as [i v|i f thr l IHl r IHr]; cbn [splits size length]; [lia|]. rewrite app_length. lia. Qed.
End Nodes.
