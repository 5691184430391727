(** Schedule independence of the parallel loops (C33). *)
From Coq Require Import List ZArith Lia Bool.
From Verif Require Import Base Lists Num M_Dataset M_Ensemble M_Parallel S_Ensemble L_Ensemble.
Import ListNotations.

Section General.
Context {A V : Type} (eqA : A -> A -> bool) (eqA_spec : forall a b, eqA a b = true <-> a = b).
Implicit Types (m : A -> V).

(** No address is used by two iterations. *)
Definition disjoint_iterations (its : list (list (@op A V))) : Prop :=
  forall i j x y o o', i <> j -> nth_error its i = Some x -> nth_error its j = Some y ->
    In o x -> In o' y -> op_addr o <> op_addr o'.

Definition apply_at (a : A) (v : V) (ops : list (@op A V)) : V :=
  fold_left (fun v o => if eqA a (op_addr o) then op_fun o v else v) ops v.

Lemma exec_at ops : forall m a, exec eqA m ops a = apply_at a (m a) ops.
Proof.
  induction ops as [|o ops IH]; intros m a; [reflexivity|].
  unfold exec, apply_at in *. cbn [fold_left]. rewrite IH. f_equal.
  unfold exec_op, store. destruct (eqA a (op_addr o)) eqn:E; [|reflexivity].
  apply eqA_spec in E. subst a. reflexivity.
Qed.
Lemma apply_app a v x y : apply_at a v (x ++ y) = apply_at a (apply_at a v x) y.
Proof. apply fold_left_app. Qed.
Lemma exec_all_at its : forall m a, exec_all eqA m its a = apply_at a (m a) (concat its).
Proof.
  induction its as [|ops its IH]; intros m a; [reflexivity|].
  unfold exec_all in *. cbn [fold_left concat]. rewrite IH, apply_app, exec_at. reflexivity.
Qed.
Lemma apply_skip a v ops : (forall o, In o ops -> op_addr o <> a) -> apply_at a v ops = v.
Proof.
  revert v. induction ops as [|o ops IH]; intros v H; [reflexivity|].
  unfold apply_at in *. cbn [fold_left].
  destruct (eqA a (op_addr o)) eqn:E.
  - apply eqA_spec in E. exfalso. apply (H o); [left; reflexivity|congruence].
  - apply IH. intros o' Ho'. apply H. right. exact Ho'.
Qed.

Definition loaded (m : A -> V) (t : @thread A V) : Prop :=
  match t with
  | (Some v, o :: _) => v = op_fun o (m (op_addr o))
  | (Some _, []) => False
  | (None, _) => True
  end.

Definition sound (m0 : A -> V) (its : list (list (@op A V))) (c : (A -> V) * list (@thread A V)) : Prop :=
  disjoint_iterations (map snd (snd c)) /\ Forall (loaded (fst c)) (snd c) /\
  forall a, apply_at a (fst c a) (concat (map snd (snd c))) = exec_all eqA m0 its a.

Lemma disjoint_shrink a b (o : @op A V) r :
  disjoint_iterations (a ++ (o :: r) :: b) -> disjoint_iterations (a ++ r :: b).
Proof.
  intros H i j x y o1 o2 Hij Hx Hy H1 H2.
  assert (G : forall i z o', nth_error (a ++ r :: b) i = Some z -> In o' z ->
                exists z', nth_error (a ++ (o :: r) :: b) i = Some z' /\ In o' z').
  { clear. intros i z o' Hz Ho. destruct (Nat.lt_ge_cases i (length a)) as [Hlt|Hge].
    - exists z. rewrite nth_error_app1 in * by lia. auto.
    - rewrite nth_error_app2 in Hz by lia. rewrite nth_error_app2 by lia.
      destruct (i - length a) as [|k]; cbn [nth_error] in *.
      + injection Hz as <-. eexists. split; [reflexivity|]. right. exact Ho.
      + exists z. auto. }
  destruct (G i x o1 Hx H1) as (x' & Hx' & H1'). destruct (G j y o2 Hy H2) as (y' & Hy' & H2').
  exact (H i j x' y' o1 o2 Hij Hx' Hy' H1' H2').
Qed.

Lemma others a b (o : @op A V) r : disjoint_iterations (a ++ (o :: r) :: b) ->
  (forall ops o', In ops a -> In o' ops -> op_addr o' <> op_addr o) /\
  (forall ops o', In ops b -> In o' ops -> op_addr o' <> op_addr o).
Proof.
  intros H. split; intros ops o' Hin Ho'; apply In_nth_error in Hin as [k Hk].
  - assert (Hlt : k < length a) by (apply nth_error_Some; congruence).
    apply (H k (length a) ops (o :: r) o' o); auto; try lia.
    + rewrite nth_error_app1 by lia. exact Hk.
    + rewrite nth_error_app2 by lia. rewrite Nat.sub_diag. reflexivity.
    + left. reflexivity.
  - apply (H (length a + S k) (length a) ops (o :: r) o' o); auto; try lia.
    + rewrite nth_error_app2 by lia. replace (length a + S k - length a) with (S k) by lia. exact Hk.
    + rewrite nth_error_app2 by lia. rewrite Nat.sub_diag. reflexivity.
    + left. reflexivity.
Qed.

Lemma step_sound m0 its c c' : step eqA c c' -> sound m0 its c -> sound m0 its c'.
Proof.
  intros Hs (Hd & Hl & He). destruct Hs as [m a b o r|m a b v o r]; cbn [fst snd] in *.
  - rewrite map_app in *. cbn [map snd] in *. repeat split; cbn [fst snd]; rewrite ?map_app; cbn [map snd]; auto.
    apply Forall_app in Hl as [Ha Hb]. apply Forall_app. split; [exact Ha|].
    inversion Hb; subst. constructor; [reflexivity|assumption].
  - rewrite map_app in *. cbn [map snd] in *.
    destruct (others _ _ _ _ Hd) as [Oa Ob].
    apply Forall_app in Hl as [Ha Hb]. inversion Hb as [|x l Hv Hb']; subst. cbn [loaded] in Hv.
    assert (Hkeep : forall t, loaded m t -> (forall o', In o' (snd t) -> op_addr o' <> op_addr o) -> loaded (store eqA m (op_addr o) v) t).
    { intros [[w|] [|o' r']] Hw Hne; cbn [loaded] in *; auto. rewrite Hw. f_equal. unfold store.
      destruct (eqA (op_addr o') (op_addr o)) eqn:E; [|reflexivity].
      apply eqA_spec in E. exfalso. apply (Hne o'); [left; reflexivity|exact E]. }
    split; [|split]; cbn [fst snd]; rewrite ?map_app; cbn [map snd].
    + eapply disjoint_shrink. exact Hd.
    + apply Forall_app. split; [|constructor; [exact I|]]; rewrite Forall_forall in *; intros t Ht; apply Hkeep; auto; intros o' Ho'.
      * eapply Oa; eauto. apply in_map. exact Ht.
      * eapply Ob; eauto. apply in_map. exact Ht.
    + intros x. rewrite <- He. rewrite !concat_app, !apply_app. cbn [concat]. rewrite !apply_app.
      f_equal. unfold store. destruct (eqA x (op_addr o)) eqn:E.
      * apply eqA_spec in E. subst x.
        rewrite !(apply_skip (op_addr o) _ (concat (map snd a))) by
          (intros o' Ho'; apply in_concat in Ho' as (ops & H1 & H2); eapply Oa; eauto).
        unfold apply_at. cbn [fold_left].
        replace (eqA (op_addr o) (op_addr o)) with true by (symmetry; apply eqA_spec; reflexivity). rewrite Hv. reflexivity.
      * unfold apply_at at 3. cbn [fold_left]. rewrite E. reflexivity.
Qed.

Lemma start_sound m0 its : disjoint_iterations its -> sound m0 its (m0, start its).
Proof.
  intros H. unfold sound, start. cbn [fst snd]. rewrite map_map. cbn [snd]. rewrite map_id. split; [exact H|]. split.
  - apply Forall_map. apply Forall_forall. intros ops _. exact I.
  - intros a. rewrite exec_all_at. reflexivity.
Qed.

Theorem C33_general_lemma m its n m' ts' : disjoint_iterations its ->
  steps eqA n (m, start its) (m', ts') -> finished ts' -> forall a, m' a = exec_all eqA m its a.
Proof.
  intros Hd Hs Hf a.
  assert (G : forall n c c', steps eqA n c c' -> sound m its c -> sound m its c').
  { clear -eqA_spec. intros n c c' H. induction H as [c|n c1 c2 c3 H H' IH]; [auto|]. intros S. apply IH. eapply step_sound; eauto. }
  destruct (G _ _ _ Hs (start_sound m its Hd)) as (_ & _ & E). cbn [fst snd] in E. rewrite <- E.
  symmetry. apply apply_skip. intros o Ho. exfalso. apply in_concat in Ho as (ops & H1 & H2).
  apply in_map_iff in H1 as (t & <- & Ht). unfold finished in Hf. rewrite Forall_forall in Hf. rewrite (Hf t Ht) in H2. destruct H2.
Qed.

(** Every execution has at most two steps per update, and can only stop when the loop is over. *)
Definition work (t : @thread A V) : nat :=
  match t with (None, ops) => 2 * length ops | (Some _, ops) => 2 * length ops - 1 end.
Definition pending (ts : list (@thread A V)) : nat := list_sum (map work ts).

Lemma step_work c c' : step eqA c c' -> pending (snd c) = S (pending (snd c')).
Proof.
  intros [m a b o r|m a b v o r]; cbn [snd]; unfold pending; rewrite !map_app, !list_sum_app; cbn [map list_sum fold_right work length]; lia.
Qed.
Lemma steps_work n c c' : steps eqA n c c' -> pending (snd c) = n + pending (snd c').
Proof. intros H. induction H as [c|n c1 c2 c3 H H' IH]; [reflexivity|]. apply step_work in H. lia. Qed.
Lemma start_work its : pending (start its) = 2 * length (concat its).
Proof.
  unfold pending, start. rewrite map_map. cbn [work]. induction its as [|ops its IH]; [reflexivity|].
  cbn [map list_sum fold_right concat] in *. rewrite app_length. unfold list_sum in IH. lia.
Qed.

Lemma loaded_step n (c c' : (A -> V) * list (@thread A V)) : steps eqA n c c' -> Forall (fun t => fst t <> None -> snd t <> []) (snd c) ->
  Forall (fun t => fst t <> None -> snd t <> []) (snd c').
Proof.
  intros H. induction H as [c|n c1 c2 c3 H H' IH]; [auto|]. intros Hc. apply IH. clear IH H'.
  destruct H as [m a b o r|m a b v o r]; cbn [snd] in *; apply Forall_app in Hc as [Ha Hb]; apply Forall_app;
    (split; [exact Ha|]); inversion Hb; subst; constructor; auto; cbn [fst snd]; congruence.
Qed.

Theorem C33_progress_lemma m its n m' ts' : steps eqA n (m, start its) (m', ts') ->
  n <= 2 * length (concat its) /\ (finished ts' \/ exists c, step eqA (m', ts') c).
Proof.
  intros H. split.
  - apply steps_work in H. cbn [snd] in H. rewrite start_work in H. lia.
  - apply loaded_step in H; cbn [snd] in *.
    + clear - H. assert (G : finished ts' \/ exists a t b, ts' = a ++ t :: b /\ t <> (None, [])).
      { clear H. induction ts' as [|t ts IH]; [left; constructor|].
        destruct t as [[v|] [|o r]].
        - right. exists [], (Some v, []), ts. split; [reflexivity|discriminate].
        - right. exists [], (Some v, o :: r), ts. split; [reflexivity|discriminate].
        - destruct IH as [IH|(a & t & b & -> & Ht)].
          + left. constructor; [reflexivity|exact IH].
          + right. exists ((None, []) :: a), t, b. split; [reflexivity|exact Ht].
        - right. exists [], (None, o :: r), ts. split; [reflexivity|discriminate]. }
      destruct G as [G|(a & t & b & -> & Ht)]; [left; exact G|right].
      apply Forall_app in H as [_ H]. inversion H as [|x l Hx _]; subst. destruct t as [[v|] [|o r]]; cbn [fst snd] in Hx.
      * destruct Hx; [discriminate|reflexivity].
      * eexists. apply step_store.
      * destruct (Ht eq_refl).
      * eexists. apply step_load.
    + unfold start. apply Forall_map. apply Forall_forall. intros ops _ Hn. cbn [fst] in Hn. congruence.
Qed.
End General.

(** ** The two loops *)
Local Open Scope Z_scope.
Section Loops.
Context {N : num}.
Implicit Types e : ensemble N.

Lemma mapM_post {A B C} (g : A -> res B) (k : B -> C) l : mapM (fun x => do s <- g x; Ok (k s)) l = bind (mapM g l) (fun r => Ok (map k r)).
Proof.
  induction l as [|x l IH]; [reflexivity|]. cbn [mapM]. destruct (g x) as [s|er]; [|reflexivity]. cbn [bind]. rewrite IH.
  destruct (mapM g l); reflexivity.
Qed.

Definition tree_value e row t : res N := do leaf <- exit_node e row t; leaf_score e t leaf.
Definition adder (i : nat) (s : N) : @op nat N := mkOp i (fun y => nf32 (nadd y s)).

Lemma basic_iteration_value e i row :
  basic_iteration e i row = bind (mapM (tree_value e row) (zrange 0 (e_ntrees e))) (fun ss => Ok (map (adder i) ss)).
Proof.
  unfold basic_iteration. rewrite <- mapM_post.
  induction (zrange 0 (e_ntrees e)) as [|t l IH]; [reflexivity|]. cbn [mapM]. rewrite IH. unfold tree_value.
  destruct (exit_node e row t) as [leaf|er]; [|reflexivity]. cbn [bind]. destruct (leaf_score e t leaf); reflexivity.
Qed.

Lemma score_instance_value e row :
  score_instance e row = bind (mapM (tree_value e row) (zrange 0 (e_ntrees e)))
                              (fun ss => Ok (fold_left (fun y s => nf32 (nadd y s)) ss nzero)).
Proof.
  unfold score_instance. generalize (@nzero N) as z. induction (zrange 0 (e_ntrees e)) as [|t l IH]; intros z; [reflexivity|].
  cbn [foldM mapM]. unfold tree_value at 1. destruct (exit_node e row t) as [leaf|er]; [|reflexivity]. cbn [bind].
  destruct (leaf_score e t leaf) as [s|er]; [|reflexivity]. cbn [bind]. rewrite IH.
  destruct (mapM (tree_value e row) l); reflexivity.
Qed.

Lemma basic_loop_values e X : forall k,
  mapM (fun p => basic_iteration e (fst p) (snd p)) (combine (seq k (length X)) X)
  = bind (mapM (fun row => mapM (tree_value e row) (zrange 0 (e_ntrees e))) X)
         (fun sss => Ok (map (fun p => map (adder (fst p)) (snd p)) (combine (seq k (length X)) sss))).
Proof.
  induction X as [|row X IH]; intros k; [reflexivity|]. cbn [length seq combine mapM fst snd].
  rewrite basic_iteration_value. destruct (mapM (tree_value e row) (zrange 0 (e_ntrees e))) as [ss|er]; [|reflexivity].
  cbn [bind]. rewrite IH. destruct (mapM _ X) as [sss|er]; reflexivity.
Qed.

Lemma basic_scoring_values e X :
  basic_scoring e X
  = bind (mapM (fun row => mapM (tree_value e row) (zrange 0 (e_ntrees e))) X)
         (fun sss => Ok (map (fun ss => fold_left (fun y s => nf32 (nadd y s)) ss nzero) sss)).
Proof.
  unfold basic_scoring. induction X as [|row X IH]; [reflexivity|]. cbn [mapM]. rewrite score_instance_value.
  destruct (mapM (tree_value e row) (zrange 0 (e_ntrees e))) as [ss|er]; [|reflexivity]. cbn [bind]. rewrite IH.
  destruct (mapM (fun row0 => mapM (tree_value e row0) (zrange 0 (e_ntrees e))) X); reflexivity.
Qed.

Lemma nat_eqb_spec a b : Nat.eqb a b = true <-> a = b.
Proof. apply Nat.eqb_eq. Qed.

Lemma apply_adders i ss : forall v, apply_at Nat.eqb i v (map (adder i) ss) = fold_left (fun y s => nf32 (nadd y s)) ss v.
Proof.
  induction ss as [|s ss IH]; intros v; [reflexivity|]. unfold apply_at in *. cbn [map fold_left adder op_addr op_fun].
  rewrite Nat.eqb_refl. apply IH.
Qed.

Lemma basic_disjoint k (sss : list (list N)) n :
  disjoint_iterations (map (fun p => map (adder (fst p)) (snd p)) (combine (seq k n) sss)).
Proof.
  intros i j x y o o' Hij Hx Hy Ho Ho'. rewrite nth_error_map in Hx, Hy.
  assert (G : forall i q, nth_error (combine (seq k n) sss) i = Some q -> fst q = (k + i)%nat).
  { clear. intros i q H. apply nth_error_combine in H as [H _].
    assert (Hi : (i < length (seq k n))%nat) by (apply nth_error_Some; congruence). rewrite seq_length in Hi.
    apply nth_error_nth with (d := 0%nat) in H. rewrite seq_nth in H by lia. congruence. }
  destruct (nth_error (combine (seq k n) sss) i) as [p|] eqn:Ep; [|discriminate].
  destruct (nth_error (combine (seq k n) sss) j) as [q|] eqn:Eq; [|discriminate].
  cbn [option_map] in Hx, Hy. injection Hx as <-. injection Hy as <-.
  apply in_map_iff in Ho as (s & <- & _). apply in_map_iff in Ho' as (s' & <- & _). cbn [adder op_addr].
  rewrite (G _ _ Ep), (G _ _ Eq). lia.
Qed.

Lemma basic_cells (sss : list (list N)) : forall k (m : nat -> N),
  (forall i, (k <= i)%nat -> m i = nzero) ->
  map (fun i => apply_at Nat.eqb i (m i) (concat (map (fun p => map (adder (fst p)) (snd p)) (combine (seq k (length sss)) sss))))
      (seq k (length sss))
  = map (fun ss => fold_left (fun y s => nf32 (nadd y s)) ss nzero) sss.
Proof.
  induction sss as [|ss sss IH]; intros k m Hm; [reflexivity|]. cbn [length seq combine map concat fst snd]. f_equal.
  - rewrite apply_app, apply_adders, Hm by lia. apply apply_skip; [exact nat_eqb_spec|].
    intros o Ho. apply in_concat in Ho as (ops & H1 & H2). apply in_map_iff in H1 as (p & <- & Hp).
    apply in_map_iff in H2 as (s & <- & _). cbn [adder op_addr]. destruct p as [i x]. apply in_combine_l in Hp.
    apply in_seq in Hp. cbn [fst]. lia.
  - rewrite <- (IH (S k) m) by (intros i Hi; apply Hm; lia). apply map_ext_in. intros i Hi. apply in_seq in Hi.
    rewrite apply_app. f_equal. apply apply_skip; [exact nat_eqb_spec|].
    intros o Ho. apply in_map_iff in Ho as (s & <- & _). cbn [adder op_addr]. lia.
Qed.

Theorem C33_basic_lemma e X :
  (forall er, basic_loop e X = Err er <-> basic_scoring e X = Err er) /\
  (forall its n m' ts', basic_loop e X = Ok its ->
     steps Nat.eqb n (basic_start, start its) (m', ts') -> finished ts' ->
     basic_scoring e X = Ok (basic_result X m')).
Proof.
  unfold basic_loop. rewrite basic_loop_values, basic_scoring_values.
  destruct (mapM (fun row => mapM (tree_value e row) (zrange 0 (e_ntrees e))) X) as [sss|er0] eqn:E; cbn [bind].
  2: { split; [intros er; split; congruence|discriminate]. }
  split; [intros er; split; discriminate|].
  intros its n m' ts' Hits Hs Hf. injection Hits as <-. f_equal.
  assert (HL : length sss = length X).
  { clear - E. revert sss E. induction X as [|row X IH]; intros sss E; cbn [mapM] in E.
    - injection E as <-. reflexivity.
    - destruct (mapM (tree_value e row) _) as [ss|]; [|discriminate]. cbn [bind] in E.
      destruct (mapM _ X) as [r|]; [|discriminate]. cbn [bind] in E. injection E as <-. cbn [length]. f_equal. apply IH. reflexivity. }
  unfold basic_result. rewrite <- HL in *.
  rewrite <- (basic_cells sss 0 basic_start) by reflexivity. apply map_ext. intros i.
  symmetry. rewrite (C33_general_lemma Nat.eqb nat_eqb_spec _ _ _ _ _ (basic_disjoint 0 sss (length sss)) Hs Hf i).
  apply exec_all_at. exact nat_eqb_spec.
Qed.

(** Detailed scoring. *)
Lemma addr_eqb_spec a b : addr_eqb a b = true <-> a = b.
Proof.
  destruct a as [p [i t]], b as [q [j u]]. unfold addr_eqb. cbn [fst snd].
  rewrite !andb_true_iff, Bool.eqb_true_iff, Nat.eqb_eq, Z.eqb_eq. split; [intros [[-> ->] ->]; reflexivity|].
  intros H. injection H as -> -> ->. auto.
Qed.

(** All updates at [a] store the same value. *)
Lemma apply_const {A V} (eqA : A -> A -> bool) (spec : forall a b, eqA a b = true <-> a = b) a (w : V) ops : forall v,
  (forall o, In o ops -> op_addr o = a -> forall x, op_fun o x = w) ->
  (v = w \/ exists o, In o ops /\ op_addr o = a) -> apply_at eqA a v ops = w.
Proof.
  induction ops as [|o ops IH]; intros v H Hex.
  - destruct Hex as [E|(o & [] & _)]. exact E.
  - unfold apply_at in *. cbn [fold_left]. apply IH.
    + intros o' Ho'. apply H. right. exact Ho'.
    + destruct (eqA a (op_addr o)) eqn:E.
      * left. apply H; [left; reflexivity|]. apply spec in E. congruence.
      * destruct Hex as [->|(o' & [<-|Ho'] & Ha)]; [left; reflexivity| |right; eauto].
        exfalso. assert (eqA a (op_addr o) = true) by (apply spec; congruence). congruence.
Qed.

Lemma mapM_all {A B} (f : A -> res B) l r : mapM f l = Ok r -> forall x, In x l -> exists y, f x = Ok y /\ In y r.
Proof.
  revert r. induction l as [|x l IH]; intros r H y Hy; [destruct Hy|]. cbn [mapM] in H.
  destruct (f x) as [z|] eqn:E; [|discriminate]. cbn [bind] in H. destruct (mapM f l) as [zs|]; [|discriminate]. cbn [bind] in H.
  injection H as <-. destruct Hy as [<-|Hy]; [exists z; split; [exact E|left; reflexivity]|].
  destruct (IH zs eq_refl y Hy) as (z' & E' & Hz'). exists z'. split; [exact E'|right; exact Hz'].
Qed.
Lemma mapM_all_inv {A B} (f : A -> res B) l r : mapM f l = Ok r -> forall y, In y r -> exists x, In x l /\ f x = Ok y.
Proof.
  revert r. induction l as [|x l IH]; intros r H y Hy; cbn [mapM] in H.
  - injection H as <-. destruct Hy.
  - destruct (f x) as [z|] eqn:E; [|discriminate]. cbn [bind] in H. destruct (mapM f l) as [zs|]; [|discriminate]. cbn [bind] in H.
    injection H as <-. destruct Hy as [<-|Hy]; [exists x; split; [left; reflexivity|exact E]|].
    destruct (IH zs eq_refl y Hy) as (x' & Hx' & E'). exists x'. split; [right; exact Hx'|exact E'].
Qed.
Lemma mapM_total {A B} (f : A -> res B) l : (forall x, In x l -> exists y, f x = Ok y) -> exists r, mapM f l = Ok r.
Proof.
  induction l as [|x l IH]; intros H; [eexists; reflexivity|]. cbn [mapM].
  destruct (H x) as [y E]; [left; reflexivity|]. rewrite E. destruct IH as [r E']; [intros z Hz; apply H; right; exact Hz|].
  rewrite E'. eexists. reflexivity.
Qed.
Lemma mapM_nth {A B} (f : A -> res B) l r : mapM f l = Ok r -> forall i y, nth_error r i = Some y ->
  exists x, nth_error l i = Some x /\ f x = Ok y.
Proof.
  revert r. induction l as [|x l IH]; intros r H i y Hy; cbn [mapM] in H.
  - injection H as <-. destruct i; discriminate.
  - destruct (f x) as [z|] eqn:E; [|discriminate]. cbn [bind] in H. destruct (mapM f l) as [zs|]; [|discriminate]. cbn [bind] in H.
    injection H as <-. destruct i as [|i]; cbn [nth_error] in *.
    + injection Hy as <-. eauto.
    + apply (IH zs eq_refl). exact Hy.
Qed.

Definition cells e row t : res (Z * N) := do leaf <- exit_node e row t; do s <- leaf_score e t leaf; Ok (leaf, s).

Lemma iteration_ops e X t ops : detailed_iteration e X t = Ok ops ->
  (forall i row, nth_error X i = Some row -> exists leaf s, cells e row t = Ok (leaf, s) /\
      In (mkOp (true, (i, t)) (fun _ => CLeaf leaf)) ops /\ In (mkOp (false, (i, t)) (fun _ => CScore s)) ops) /\
  (forall o, In o ops -> exists i row leaf s, nth_error X i = Some row /\ cells e row t = Ok (leaf, s) /\
      (o = mkOp (true, (i, t)) (fun _ => CLeaf leaf) \/ o = mkOp (false, (i, t)) (fun _ => CScore s))).
Proof.
  unfold detailed_iteration.
  destruct (mapM _ (combine (seq 0 (length X)) X)) as [opss|] eqn:E; [|discriminate]. cbn [bind]. intros H. injection H as <-.
  assert (Hin : forall i row, In (i, row) (combine (seq 0 (length X)) X) <-> nth_error X i = Some row).
  { clear. intros i row. split.
    - intros H. apply In_nth_error in H as [k Hk]. apply nth_error_combine in Hk as [H1 H2]. cbn [fst snd] in *.
      assert (Hk : (k < length (seq 0 (length X)))%nat) by (apply nth_error_Some; congruence). rewrite seq_length in Hk.
      apply nth_error_nth with (d := 0%nat) in H1. rewrite seq_nth in H1 by lia. cbn in H1. subst k. exact H2.
    - intros H. apply nth_error_In with (n := i).
      assert (G : forall (X : list (list N)) k i, nth_error X i = Some row ->
                    nth_error (combine (seq k (length X)) X) i = Some ((k + i)%nat, row)).
      { clear. induction X as [|x X IH]; intros k i H; [destruct i; discriminate|].
        destruct i as [|i]; cbn [nth_error length seq combine] in *.
        - rewrite Nat.add_0_r. injection H as ->. reflexivity.
        - replace (k + S i)%nat with (S k + i)%nat by lia. apply IH. exact H. }
      exact (G X 0%nat i H). }
  split.
  - intros i row Hi. apply Hin in Hi. destruct (mapM_all _ _ _ E _ Hi) as (l & El & Hl). cbn [fst snd] in El.
    unfold cells. destruct (exit_node e row t) as [leaf|]; [|discriminate]. cbn [bind] in *.
    destruct (leaf_score e t leaf) as [s|]; [|discriminate]. cbn [bind] in *. injection El as <-.
    exists leaf, s. split; [reflexivity|]. split; apply in_concat; eexists; (split; [exact Hl|]); [left|right; left]; reflexivity.
  - intros o Ho. apply in_concat in Ho as (l & Hl & Ho). destruct (mapM_all_inv _ _ _ E _ Hl) as ([i row] & Hi & El). cbn [fst snd] in El.
    apply Hin in Hi. exists i, row. unfold cells. destruct (exit_node e row t) as [leaf|]; [|discriminate]. cbn [bind] in *.
    destruct (leaf_score e t leaf) as [s|]; [|discriminate]. cbn [bind] in *. injection El as <-.
    exists leaf, s. split; [exact Hi|]. split; [reflexivity|]. destruct Ho as [<-|[<-|[]]]; auto.
Qed.

Definition leaf_at e row t : Z := match cells e row t with Ok p => fst p | Err _ => 0 end.
Definition score_at e row t : N := match cells e row t with Ok p => snd p | Err _ => nzero end.

Lemma zrange_nodup a b i j x : nth_error (zrange a b) i = Some x -> nth_error (zrange a b) j = Some x -> i = j.
Proof.
  unfold zrange. rewrite !nth_error_map.
  intros Hi Hj. destruct (nth_error (seq 0 (Z.to_nat (b - a))) i) as [k|] eqn:Ei; [|discriminate].
  destruct (nth_error (seq 0 (Z.to_nat (b - a))) j) as [k'|] eqn:Ej; [|discriminate]. cbn [option_map] in *.
  assert (k = k') by (injection Hi as <-; injection Hj; lia). subst k'.
  assert (Li : (i < length (seq 0 (Z.to_nat (b - a))))%nat) by (apply nth_error_Some; congruence).
  assert (Lj : (j < length (seq 0 (Z.to_nat (b - a))))%nat) by (apply nth_error_Some; congruence).
  rewrite seq_length in Li, Lj.
  apply nth_error_nth with (d := 0%nat) in Ei, Ej. rewrite seq_nth in Ei, Ej by lia. lia.
Qed.

Theorem C33_detailed_lemma e X : 0 <= e_ntrees e ->
  ((exists its, detailed_loop e X = Ok its) <-> exists r, detailed_scoring e X = Ok r) /\
  (forall its n m' ts', detailed_loop e X = Ok its ->
     steps addr_eqb n (detailed_start, start its) (m', ts') -> finished ts' ->
     detailed_scoring e X = Ok (detailed_result e X m')).
Proof.
  intros Hn.
  assert (Hdet : (forall row t, In row X -> In t (zrange 0 (e_ntrees e)) -> exists p, cells e row t = Ok p) ->
    detailed_scoring e X = Ok (map (fun row => map (leaf_at e row) (zrange 0 (e_ntrees e))) X,
                               map (fun row => map (score_at e row) (zrange 0 (e_ntrees e))) X)).
  { intros Hall. unfold detailed_scoring. replace (e_ntrees e <? 0) with false by (symmetry; apply Z.ltb_ge; lia).
    rewrite (mapM_ok _ (fun row => map (fun t => (leaf_at e row t, score_at e row t)) (zrange 0 (e_ntrees e)))).
    - cbn [bind]. rewrite !map_map. do 2 f_equal; apply map_ext; intros row; rewrite map_map; reflexivity.
    - intros row Hrow. unfold detail_instance. apply mapM_ok. intros t Ht. destruct (Hall row t Hrow Ht) as [[leaf s] E].
      unfold leaf_at, score_at. rewrite E. cbn [fst snd]. unfold cells in E.
      destruct (exit_node e row t) as [leaf'|]; [|discriminate]. cbn [bind] in *.
      destruct (leaf_score e t leaf') as [s'|]; [|discriminate]. cbn [bind] in *. injection E as -> ->. reflexivity. }
  assert (Hloop : forall its, detailed_loop e X = Ok its -> forall row t, In row X -> In t (zrange 0 (e_ntrees e)) -> exists p, cells e row t = Ok p).
  { intros its Hits row t Hrow Ht. destruct (mapM_all _ _ _ Hits t Ht) as (ops & E & _). apply In_nth_error in Hrow as [i Hi].
    destruct (iteration_ops _ _ _ _ E) as [H _]. destruct (H i row Hi) as (leaf & s & Ec & _). eauto. }
  split.
  - split.
    + intros [its Hits]. rewrite (Hdet (Hloop its Hits)). eauto.
    + intros Hx.
      assert (Hall : forall row t, In row X -> In t (zrange 0 (e_ntrees e)) -> exists p, cells e row t = Ok p).
      { destruct Hx as [r Hr]. intros row t Hrow Ht. unfold detailed_scoring in Hr.
        destruct (e_ntrees e <? 0); [discriminate|]. destruct (mapM (detail_instance e) X) as [m|] eqn:Em; [|discriminate].
        destruct (mapM_all _ _ _ Em row Hrow) as (l & El & _). destruct (mapM_all _ _ _ El t Ht) as (p & Ep & _).
        exists p. exact Ep. }
      unfold detailed_loop. apply mapM_total. intros t Ht. unfold detailed_iteration.
      destruct (mapM_total (fun p : nat * list N => do leaf <- exit_node e (snd p) t; do s <- leaf_score e t leaf;
                  Ok [mkOp (true, (fst p, t)) (fun _ : @cell N => CLeaf leaf); mkOp (false, (fst p, t)) (fun _ => CScore s)])
                  (combine (seq 0 (length X)) X)) as [r E].
      { intros [i row] Hi. apply in_combine_r in Hi. destruct (Hall row t Hi Ht) as [[leaf s] Ec]. unfold cells in Ec. cbn [fst snd].
        destruct (exit_node e row t) as [leaf'|]; [|discriminate]. cbn [bind] in *.
        destruct (leaf_score e t leaf') as [s'|]; [|discriminate]. cbn [bind]. eauto. }
      rewrite E. cbn [bind]. eauto.
  - intros its n m' ts' Hits Hs Hf. rewrite (Hdet (Hloop its Hits)). f_equal. unfold detailed_result.
    assert (Hdis : disjoint_iterations its).
    { intros i j x y o o' Hij Hx Hy Ho Ho'.
      destruct (mapM_nth _ _ _ Hits i x Hx) as (t & Ht & Et). destruct (mapM_nth _ _ _ Hits j y Hy) as (u & Hu & Eu).
      assert (Htu : t <> u) by (intros ->; apply Hij; eapply zrange_nodup; eauto).
      destruct (proj2 (iteration_ops _ _ _ _ Et) o Ho) as (i1 & r1 & l1 & s1 & _ & _ & E1).
      destruct (proj2 (iteration_ops _ _ _ _ Eu) o' Ho') as (i2 & r2 & l2 & s2 & _ & _ & E2).
      destruct E1 as [-> | ->], E2 as [-> | ->]; cbn [op_addr]; congruence. }
    pose proof (C33_general_lemma addr_eqb addr_eqb_spec _ _ _ _ _ Hdis Hs Hf) as Hm.
    assert (Hcell : forall i row t, nth_error X i = Some row -> In t (zrange 0 (e_ntrees e)) ->
              m' (true, (i, t)) = CLeaf (leaf_at e row t) /\ m' (false, (i, t)) = CScore (score_at e row t)).
    { intros i row t Hi Ht. rewrite !Hm, !exec_all_at by exact addr_eqb_spec.
      destruct (mapM_all _ _ _ Hits t Ht) as (ops & Et & Hops). destruct (proj1 (iteration_ops _ _ _ _ Et) i row Hi) as (leaf & s & Ec & I1 & I2).
      unfold leaf_at, score_at. rewrite Ec. cbn [fst snd].
      assert (Hall : forall o, In o (concat its) -> (op_addr o = (true, (i, t)) -> forall x, op_fun o x = CLeaf leaf) /\
                                                    (op_addr o = (false, (i, t)) -> forall x, op_fun o x = CScore s)).
      { intros o Ho. apply in_concat in Ho as (ops' & Hops' & Ho). destruct (mapM_all_inv _ _ _ Hits ops' Hops') as (u & _ & Eu).
        destruct (proj2 (iteration_ops _ _ _ _ Eu) o Ho) as (i1 & r1 & l1 & s1 & Hi1 & Ec1 & E1).
        split; destruct E1 as [-> | ->]; cbn [op_addr op_fun]; intros Ea x; try discriminate; injection Ea as -> ->; rewrite Hi in Hi1;
          injection Hi1 as <-; rewrite Ec in Ec1; injection Ec1 as <- <-; reflexivity. }
      split; apply apply_const; try exact addr_eqb_spec.
      - intros o Ho. apply (Hall o Ho).
      - right. eexists. split; [apply in_concat; exists ops; split; [exact Hops|exact I1]|reflexivity].
      - intros o Ho. apply (Hall o Ho).
      - right. eexists. split; [apply in_concat; exists ops; split; [exact Hops|exact I2]|reflexivity]. }
    assert (Hrows : forall {B} (f : list N -> B) (g : nat -> B), (forall i row, nth_error X i = Some row -> f row = g i) -> map f X = map g (seq 0 (length X))).
    { clear. intros B f g. revert g. induction X as [|row X IH]; intros g H; [reflexivity|]. cbn [map length seq]. f_equal; [apply H; reflexivity|].
      rewrite <- seq_shift, map_map. apply IH. intros i r Hi. apply H. exact Hi. }
    f_equal; apply Hrows; intros i row Hi; apply map_ext_in; intros t Ht; destruct (Hcell i row t Hi Ht) as [E1 E2]; rewrite ?E1, ?E2; reflexivity.
Qed.
End Loops.
