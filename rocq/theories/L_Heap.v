(** The heap of M_Heap.v: reading through growing memories. *)
From Coq Require Import List ZArith Lia Bool.
From Verif Require Import Base Lists Num M_Dataset M_NDCG M_Ensemble M_Heap S_Heap.
Import ListNotations.

Section Heap.
Context {N : num}.
Variable rowsum : list N -> N.
Variable digest : list (list N) -> list N -> list Z -> Z.
Implicit Types st : state N.
Implicit Types h : heap N.

(** [h'] keeps all the arrays of [h]. *)
Definition keeps h h' : Prop :=
  length h <= length h' /\ forall x, x < length h -> nth_error h' x = nth_error h x.

Lemma keeps_refl h : keeps h h.
Proof. split; auto. Qed.
Lemma keeps_trans h1 h2 h3 : keeps h1 h2 -> keeps h2 h3 -> keeps h1 h3.
Proof. intros [A B] [C D]. split; [lia|]. intros x Hx. rewrite D by lia. auto. Qed.
Lemma keeps_app h l : keeps h (h ++ l).
Proof. split; [rewrite app_length; lia|]. intros x Hx. apply nth_error_app1; auto. Qed.
Lemma keeps_write h h' x b : keeps h h' -> length h <= x -> keeps h (write h' x b).
Proof.
  intros [A B] Hx. unfold write. split; [rewrite upd_length; auto|].
  intros y Hy. rewrite nth_error_upd_neq by lia. auto.
Qed.

Lemma floats_keeps h h' x : keeps h h' -> x < length h -> floats h' x = floats h x.
Proof. intros [_ B] Hx. unfold floats. rewrite B; auto. Qed.
Lemma rows_keeps h h' x : keeps h h' -> x < length h -> rows h' x = rows h x.
Proof. intros [_ B] Hx. unfold rows. rewrite B; auto. Qed.
Lemma ints_keeps h h' x : keeps h h' -> x < length h -> ints h' x = ints h x.
Proof. intros [_ B] Hx. unfold ints. rewrite B; auto. Qed.
Lemma int_rows_keeps h h' x : keeps h h' -> x < length h -> int_rows h' x = int_rows h x.
Proof. intros [_ B] Hx. unfold int_rows. rewrite B; auto. Qed.

(** What an object holds depends on its arrays only. *)
Definition agree (h h' : heap N) (l : list addr) : Prop :=
  forall x, In x l -> nth_error h' x = nth_error h x.
Lemma agree_keeps h h' l : keeps h h' -> (forall x, In x l -> x < length h) -> agree h h' l.
Proof. intros [_ B] H x Hx. auto. Qed.
Lemma agree_write h x b l : ~ In x l -> agree h (write h x b) l.
Proof. intros H y Hy. unfold write. apply nth_error_upd_neq. intros ->. auto. Qed.

Lemma dataset_agree h h' d : agree h h' (arrays_of_dataset d) -> dataset_of h' d = dataset_of h d.
Proof.
  intros H. unfold dataset_of, rows, floats, ints.
  rewrite (H (d_X d)), (H (d_y d)), (H (d_qids d)), (H (d_offs d)) by (cbn; tauto). reflexivity.
Qed.
Lemma option_map_agree {A} (f f' : addr -> A) o :
  (forall x, In x (opt_list o) -> f' x = f x) -> option_map f' o = option_map f o.
Proof. destruct o as [x|]; cbn; intros H; [rewrite (H x); auto|reflexivity]. Qed.
Lemma scorer_agree h h' s : agree h h' (arrays_of_scorer s) -> scorer_of h' s = scorer_of h s.
Proof.
  intros H. unfold scorer_of. unfold arrays_of_scorer in H.
  f_equal; apply option_map_agree; intros x Hx; unfold floats, rows, int_rows; rewrite H; auto;
    rewrite !in_app_iff; tauto.
Qed.
Lemma ensemble_agree h h' m : agree h h' (arrays_of_model m) -> ensemble_of h' m = ensemble_of h m.
Proof.
  intros H. unfold ensemble_of, view_ints, view_floats, ints, floats.
  unfold arrays_of_model in H. cbn [map] in H.
  rewrite (H (v_at (o_root m))), (H (v_at (o_weight m))), (H (v_at (o_left m))),
    (H (v_at (o_right m))), (H (v_at (o_value m))), (H (v_at (o_feature m))) by (cbn; tauto).
  reflexivity.
Qed.

(** [st'] keeps the arrays and the objects of [st], up to the remembered hashes. *)
Definition same_dobj (d d' : dobj) : Prop :=
  d_X d' = d_X d /\ d_y d' = d_y d /\ d_qids d' = d_qids d /\ d_offs d' = d_offs d /\
  d_nf d' = d_nf d /\ (d_hash d <> None -> d_hash d' = d_hash d).
Definition grows st st' : Prop :=
  keeps (mem st) (mem st') /\
  length (dss st) <= length (dss st') /\
  (forall i, i < length (dss st) -> same_dobj (nth i (dss st) no_dobj) (nth i (dss st') no_dobj)) /\
  length (scs st) <= length (scs st') /\
  (forall i, i < length (scs st) -> nth i (scs st') empty_sobj = nth i (scs st) empty_sobj).

Lemma same_dobj_refl d : same_dobj d d.
Proof. repeat split. Qed.
Lemma same_dobj_trans a b c : same_dobj a b -> same_dobj b c -> same_dobj a c.
Proof.
  intros (A1 & A2 & A3 & A4 & A5 & A6) (B1 & B2 & B3 & B4 & B5 & B6).
  repeat split; try congruence. intros H. rewrite B6; auto. rewrite A6; auto.
Qed.
Lemma same_dobj_arrays d d' : same_dobj d d' -> arrays_of_dataset d' = arrays_of_dataset d.
Proof. intros (A & B & C & D & _). unfold arrays_of_dataset. congruence. Qed.
Lemma same_dobj_of h d d' : same_dobj d d' -> dataset_of h d' = dataset_of h d.
Proof. intros (A & B & C & D & E & _). unfold dataset_of. congruence. Qed.

Lemma grows_refl st : grows st st.
Proof. repeat split; auto. Qed.
Lemma grows_trans a b c : grows a b -> grows b c -> grows a c.
Proof.
  intros (A1 & A2 & A3 & A4 & A5) (B1 & B2 & B3 & B4 & B5). split; [eapply keeps_trans; eauto|].
  split; [lia|]. split; [|split; [lia|]].
  - intros i Hi. eapply same_dobj_trans; [apply A3|apply B3]; lia.
  - intros i Hi. rewrite B5 by lia. auto.
Qed.

Lemma in_nth_lt {A} (l : list A) i d : i < length l -> In (nth i l d) l.
Proof. apply nth_In. Qed.

Lemma dataset_at_grows st st' i : valid st -> grows st st' -> i < length (dss st) ->
  dataset_at st' i = dataset_at st i.
Proof.
  intros [V _] (K & _ & D & _) Hi. unfold dataset_at.
  rewrite (same_dobj_of _ _ _ (D i Hi)). apply dataset_agree. apply agree_keeps; auto.
  apply V. apply in_nth_lt; auto.
Qed.
Lemma scorer_at_grows st st' i : valid st -> grows st st' -> i < length (scs st) ->
  scorer_at st' i = scorer_at st i.
Proof.
  intros (_ & V & _) (K & _ & _ & _ & S5) Hi. unfold scorer_at. rewrite S5 by auto.
  apply scorer_agree. apply agree_keeps; auto. apply V. apply in_nth_lt; auto.
Qed.
Lemma entry_of_grows st st' k z s : valid st -> grows st st' -> k < length (dss st) -> s < length (scs st) ->
  entry_of st' (k, z, s) = entry_of st (k, z, s).
Proof.
  intros V G Hk Hs. unfold entry_of. cbn [fst snd].
  rewrite (dataset_at_grows st st'), (scorer_at_grows st st'); auto.
Qed.
Lemma cache_grows st st' c : valid st -> grows st st' -> cache_ok st c ->
  map (entry_of st') c = map (entry_of st) c.
Proof.
  intros V G C. apply map_ext_in. intros [[k z] s] H. destruct (C k z s H) as (A & B & _).
  apply entry_of_grows; auto.
Qed.
Lemma ensemble_grows st st' m : grows st st' -> in_memory st (arrays_of_model m) ->
  ensemble_of (mem st') m = ensemble_of (mem st) m.
Proof. intros (K & _) H. apply ensemble_agree. apply agree_keeps; auto. Qed.
Lemma model_of_grows st st' m : valid st -> grows st st' -> in_memory st (arrays_of_model m) ->
  cache_ok st (o_cache m) -> model_of st' m = model_of st m.
Proof.
  intros V G A C. unfold model_of. rewrite (ensemble_grows st st'), (cache_grows st st'); auto.
Qed.
Lemma cache_ok_grows st st' c : grows st st' -> cache_ok st c -> cache_ok st' c.
Proof.
  intros (_ & D & D' & S4 & _) C k z s H. destruct (C k z s H) as (A & B & E).
  split; [lia|]. split; [lia|]. destruct (D' k A) as (_ & _ & _ & _ & _ & F). rewrite F; auto. congruence.
Qed.
Lemma in_memory_grows st st' l : grows st st' -> in_memory st l -> in_memory st' l.
Proof. intros ((K & _) & _) H x Hx. specialize (H x Hx). lia. Qed.

(** ** Adding objects *)
Definition inv st : Prop := valid st /\ stable digest st.

Lemma inv_extend st h' ds' ss' ms' :
  inv st -> keeps (mem st) h' ->
  (forall d, In d ds' -> (forall x, In x (arrays_of_dataset d) -> x < length h') /\
                         forall z, d_hash d = Some z -> z = ds_hash digest (dataset_of h' d)) ->
  (forall s, In s ss' -> forall x, In x (arrays_of_scorer s) -> x < length h') ->
  (forall m, In m ms' -> (forall x, In x (arrays_of_model m) -> x < length h') /\
             cache_ok (mkState h' (dss st ++ ds') (scs st ++ ss') (mos st ++ ms')) (o_cache m)) ->
  inv (mkState h' (dss st ++ ds') (scs st ++ ss') (mos st ++ ms')) /\
  grows st (mkState h' (dss st ++ ds') (scs st ++ ss') (mos st ++ ms')).
Proof.
  intros [(V1 & V2 & V3) S0] K D S1 M.
  assert (G : grows st (mkState h' (dss st ++ ds') (scs st ++ ss') (mos st ++ ms'))).
  { split; [exact K|]. cbn [dss scs]. split; [rewrite app_length; lia|].
    split; [intros i Hi; rewrite app_nth1 by auto; apply same_dobj_refl|].
    split; [rewrite app_length; lia|]. intros i Hi. apply app_nth1; auto. }
  split; [|exact G]. split; [split; [|split]|].
  - cbn [dss]. intros d Hd. apply in_app_or in Hd. destruct Hd as [Hd|Hd].
    + eapply in_memory_grows; eauto.
    + intros x Hx. cbn [mem]. apply (D d Hd). exact Hx.
  - cbn [scs]. intros s Hs. apply in_app_or in Hs. destruct Hs as [Hs|Hs].
    + eapply in_memory_grows; eauto.
    + intros x Hx. cbn [mem]. eapply S1; eauto.
  - cbn [mos]. intros m Hm. apply in_app_or in Hm. destruct Hm as [Hm|Hm].
    + destruct (V3 m Hm) as [A B]. split; [eapply in_memory_grows; eauto|eapply cache_ok_grows; eauto].
    + destruct (M m Hm) as [A B]. split; [exact A|exact B].
  - intros d z. cbn [dss mem]. intros Hd Hz. apply in_app_or in Hd. destruct Hd as [Hd|Hd].
    + rewrite (S0 d z Hd Hz). f_equal. symmetry. apply dataset_agree. apply agree_keeps; auto.
      apply V1; auto.
    + apply (D d Hd). exact Hz.
Qed.

Lemma state_eta st : mkState (mem st) (dss st ++ []) (scs st ++ []) (mos st ++ []) = st.
Proof. destruct st as [a b c d]. cbn [mem dss scs mos]. rewrite !app_nil_r. reflexivity. Qed.

Lemma inv_alloc st b : inv st ->
  inv (mkState (mem st ++ [b]) (dss st) (scs st) (mos st)) /\
  grows st (mkState (mem st ++ [b]) (dss st) (scs st) (mos st)).
Proof.
  intros I. pose proof (inv_extend st (mem st ++ [b]) [] [] [] I (keeps_app _ _)) as H.
  rewrite !app_nil_r in H. apply H; intros ? [].
Qed.

Lemma inv_start : inv start.
Proof. split; [split; [intros ? []|split; intros ? []]|intros ? ? []]. Qed.

Lemma app_length1 {A} (l : list A) x : length (l ++ [x]) = S (length l).
Proof. rewrite app_length. cbn. lia. Qed.

Lemma map_of_to l : map Z.to_nat (map Z.of_nat l) = l.
Proof. rewrite map_map. rewrite (map_ext _ (fun x => x)); [apply map_id|]. intros x. apply Nat2Z.id. Qed.

Lemma nth_app_last {A} (l : list A) x : nth_error (l ++ [x]) (length l) = Some x.
Proof. rewrite nth_error_app2 by lia. rewrite Nat.sub_diag. reflexivity. Qed.
Lemma nth_app_2 {A} (l : list A) x y : nth_error ((l ++ [x]) ++ [y]) (length l) = Some x.
Proof. rewrite nth_error_app1 by (rewrite app_length1; lia). apply nth_app_last. Qed.
Lemma nth_app_3 {A} (l : list A) x y z : nth_error (((l ++ [x]) ++ [y]) ++ [z]) (length l) = Some x.
Proof. rewrite nth_error_app1 by (rewrite !app_length1; lia). apply nth_app_2. Qed.

(** ** Data sets *)
Lemma install_inv st X y v : inv st -> X < length (mem st) -> y < length (mem st) ->
  inv (install st X y v) /\ grows st (install st X y v) /\ mos (install st X y v) = mos st.
Proof.
  intros I HX Hy. unfold install, alloc.
  pose proof (inv_extend st ((mem st ++ [Ints (ds_qids v)]) ++ [Ints (map Z.of_nat (ds_offs v))])
    [mkDobj X y (length (mem st)) (length (mem st ++ [Ints (ds_qids v)])) (ds_nf v) None] [] [] I) as H.
  rewrite !app_nil_r in H. destruct H as [A B].
  - eapply keeps_trans; apply keeps_app.
  - intros d [<-|[]]. split; [|discriminate]. unfold arrays_of_dataset.
    cbn [d_X d_y d_qids d_offs]. rewrite !app_length1. intros x [<-|[<-|[<-|[<-|[]]]]]; lia.
  - intros ? [].
  - intros ? [].
  - split; [exact A|]. split; [exact B|reflexivity].
Qed.

Lemma install_copy_inv st v : inv st ->
  inv (install_copy st v) /\ grows st (install_copy st v) /\ mos (install_copy st v) = mos st.
Proof.
  intros I. unfold install_copy, alloc.
  destruct (inv_alloc st (Rows (ds_X v)) I) as [I1 G1].
  destruct (inv_alloc _ (Floats (ds_y v)) I1) as [I2 G2]. cbn [mem dss scs mos] in I2, G2.
  destruct (install_inv _ (length (mem st)) (length (mem st ++ [Rows (ds_X v)])) v I2) as (A & B & C).
  - cbn [mem]. rewrite !app_length1. lia.
  - cbn [mem]. rewrite !app_length1. lia.
  - split; [exact A|]. split; [|exact C]. eapply grows_trans; [exact G1|]. eapply grows_trans; [exact G2|exact B].
Qed.

Definition quiet st st' : Prop := inv st' /\ grows st st' /\ mos st' = mos st.
Lemma quiet_refl st : inv st -> quiet st st.
Proof. intros I. split; [auto|]. split; [apply grows_refl|auto]. Qed.
Lemma quiet_trans a b c : quiet a b -> quiet b c -> quiet a c.
Proof.
  intros (A1 & A2 & A3) (B1 & B2 & B3). split; [auto|]. split; [eapply grows_trans; eauto|congruence].
Qed.

Lemma make_dataset_quiet st nf X y ids : inv st -> X < length (mem st) -> y < length (mem st) ->
  quiet st (fst (make_dataset st nf X y ids)).
Proof.
  intros I HX Hy. unfold make_dataset. destruct (ds_init _ _ _ _) as [v|e]; cbn [fst].
  - apply install_inv; auto.
  - apply quiet_refl; auto.
Qed.
Lemma subset_quiet st d q : inv st -> quiet st (fst (heap_subset st d q)).
Proof.
  intros I. unfold heap_subset. destruct (subset _ _) as [v|e]; cbn [fst].
  - apply install_copy_inv; auto.
  - apply quiet_refl; auto.
Qed.
Lemma subset_features_quiet st d fs : inv st -> d < length (dss st) ->
  quiet st (fst (heap_subset_features st d fs)).
Proof.
  intros I Hd. unfold heap_subset_features. destruct (subset_features _ _) as [v|e]; cbn [fst alloc].
  - destruct (inv_alloc st (Rows (ds_X v)) I) as [I1 G1].
    destruct (install_inv _ (length (mem st)) (d_y (nth d (dss st) no_dobj)) v I1) as (A & B & C).
    + cbn [mem]. rewrite !app_length1. lia.
    + cbn [mem]. rewrite !app_length1. destruct I as [(V & _) _].
      specialize (V _ (in_nth_lt _ _ no_dobj Hd) (d_y (nth d (dss st) no_dobj))).
      assert (d_y (nth d (dss st) no_dobj) < length (mem st)); [|lia]. apply V. right. left. reflexivity.
    + unfold alloc. split; [exact A|]. split; [eapply grows_trans; eauto|exact C].
  - apply quiet_refl; auto.
Qed.
Lemma split_quiet st d tr va pm : inv st -> quiet st (fst (heap_split st d tr va pm)).
Proof.
  intros I. unfold heap_split. destruct (split _ _ _ _) as [[[a b] c]|e]; cbn [fst].
  - pose proof (install_copy_inv st a I) as Q1.
    assert (Q2 : quiet st (match b with Some v => install_copy (install_copy st a) v | None => install_copy st a end)).
    { destruct b as [v|]; [|exact Q1]. eapply quiet_trans; [exact Q1|]. apply install_copy_inv. apply Q1. }
    eapply quiet_trans; [exact Q2|]. apply install_copy_inv. apply Q2.
  - apply quiet_refl; auto.
Qed.
Lemma kfold_quiet st d n q : inv st -> quiet st (fst (heap_kfold st d n q)).
Proof.
  intros I. unfold heap_kfold. destruct (kfold _ _ _) as [fs|e]; cbn [fst].
  - clear d n q. revert st I. induction fs as [|[[a b] c] fs IH]; intros st I; cbn [fold_left].
    + apply quiet_refl; auto.
    + set (st3 := install_copy (install_copy (install_copy st a) b) c).
      assert (Q : quiet st st3).
      { unfold st3. pose proof (install_copy_inv st a I) as Q1.
        pose proof (install_copy_inv _ b (proj1 Q1)) as Q2.
        pose proof (install_copy_inv _ c (proj1 Q2)) as Q3.
        eapply quiet_trans; [exact Q1|]. eapply quiet_trans; [exact Q2|exact Q3]. }
      eapply quiet_trans; [exact Q|]. apply IH. apply Q.
  - apply quiet_refl; auto.
Qed.

(** ** Hashing *)
Lemma nth_upd {A} (l : list A) i j v d : nth j (upd l i v) d
  = if Nat.eqb i j then (if Nat.ltb j (length l) then v else d) else nth j l d.
Proof.
  revert i j. induction l as [|x l IH]; intros i j.
  - destruct (Nat.eqb i j), i, j; reflexivity.
  - destruct i, j; try reflexivity. cbn [upd nth length]. rewrite IH. reflexivity.
Qed.
Lemma in_upd {A} (l : list A) i v x : In x (upd l i v) -> x = v \/ In x l.
Proof.
  revert i. induction l as [|y l IH]; intros i H; [destruct i; auto|].
  destruct i; cbn [upd] in H; destruct H as [H|H].
  - left; auto.
  - right; right; auto.
  - right; left; auto.
  - destruct (IH _ H); [left; auto|right; right; auto].
Qed.

Lemma hash_quiet st i : inv st -> i < length (dss st) ->
  quiet st (fst (hash_of digest st i)) /\
  d_hash (nth i (dss (fst (hash_of digest st i))) no_dobj) = Some (snd (hash_of digest st i)) /\
  snd (hash_of digest st i) = ds_hash digest (dataset_at st i) /\
  scs (fst (hash_of digest st i)) = scs st /\ mem (fst (hash_of digest st i)) = mem st.
Proof.
  intros I Hi. unfold hash_of.
  destruct (d_hash (nth i (dss st) no_dobj)) as [z|] eqn:E; cbn [fst snd].
  - split; [apply quiet_refl; auto|]. split; [exact E|]. split; [|auto].
    destruct I as [_ S0]. apply S0; auto. apply in_nth_lt; auto.
  - set (d := nth i (dss st) no_dobj) in *.
    set (d' := mkDobj (d_X d) (d_y d) (d_qids d) (d_offs d) (d_nf d)
                      (Some (ds_hash digest (dataset_of (mem st) d)))).
    assert (Hin : In d (dss st)) by (apply in_nth_lt; auto).
    assert (Hs : same_dobj d d'). { repeat split. intros C. contradiction. }
    destruct I as [(V1 & V2 & V3) S0].
    assert (G : grows st (mkState (mem st) (upd (dss st) i d') (scs st) (mos st))).
    { split; [apply keeps_refl|]. cbn [dss scs]. rewrite upd_length. split; [lia|].
      split; [|split; [lia|reflexivity]]. intros j Hj. rewrite nth_upd.
      destruct (Nat.eqb_spec i j) as [<-|Hij].
      - apply Nat.ltb_lt in Hi. rewrite Hi. exact Hs.
      - apply same_dobj_refl. }
    split; [split; [split; [split; [|split]|]|split; [exact G|reflexivity]]|].
    + cbn [dss]. intros x Hx. apply in_upd in Hx. destruct Hx as [->|Hx]; [|apply V1; auto].
      exact (V1 d Hin).
    + exact V2.
    + intros m Hm. destruct (V3 m Hm) as [A B]. split; [exact A|]. eapply cache_ok_grows; eauto.
    + intros x z Hx Hz. cbn [dss mem] in *. apply in_upd in Hx. destruct Hx as [->|Hx]; [|apply S0; auto].
      cbn [d_hash d'] in Hz. injection Hz as <-. reflexivity.
    + split; [|auto]. cbn [dss]. rewrite nth_upd, Nat.eqb_refl.
      apply Nat.ltb_lt in Hi. rewrite Hi. reflexivity.
Qed.

End Heap.
