(** What the library never writes, and which objects do not share arrays. *)
From Coq Require Import List ZArith QArith Lia Bool.
From Verif Require Import Base Lists Num M_Dataset M_NDCG M_Ensemble M_Heap S_Heap L_Heap L_Heap2 L_Heap3.
Import ListNotations.
Local Open Scope nat_scope.

Section Frame.
Context {N : num}.
Variable rowsum : list N -> N.
Variable digest : list (list N) -> list N -> list Z -> Z.
Implicit Types st : state N.
Implicit Types h : heap N.

(** ** Only clients write into existing arrays *)
Lemma install_keeps st X y v : keeps (mem st) (mem (install st X y v)).
Proof. unfold install, alloc. cbn [mem]. rewrite <- app_assoc. apply keeps_app. Qed.
Lemma install_copy_keeps st v : keeps (mem st) (mem (install_copy st v)).
Proof.
  unfold install_copy, alloc. eapply keeps_trans; [|apply install_keeps]. cbn [mem]. rewrite <- app_assoc. apply keeps_app.
Qed.
Lemma hash_keeps st i : mem (fst (hash_of digest st i)) = mem st.
Proof. unfold hash_of. destruct (d_hash _); reflexivity. Qed.
Lemma fresh_keeps st m d z det cache : keeps (mem st) (mem (fst (score_fresh rowsum st m d z det cache))).
Proof.
  unfold score_fresh. destruct (if cache then _ else _) as [c|e]; [|apply keeps_refl].
  destruct (fill rowsum _ _ _ det) as [[h s]|e] eqn:E; [|apply keeps_refl]. cbn [fst mem].
  destruct (fill_ok _ _ _ _ _ _ _ E) as (K & F & _). apply adjust_keeps; auto.
Qed.
Lemma copy_dobj_keeps st k : keeps (mem st) (mem (copy_dobj st k)).
Proof. destruct (copy_dobj_parts st k) as (h & d & -> & _ & _ & _ & K & _). exact K. Qed.
Lemma copy_sobj_keeps st k : keeps (mem st) (mem (copy_sobj st k)).
Proof. destruct (copy_sobj_parts st k) as (h & d & -> & _ & _ & K). exact K. Qed.
Lemma copy_cache_keeps c : forall st, keeps (mem st) (mem (fst (copy_cache st c))).
Proof.
  induction c as [|[[k z] s] c IH]; intros st; cbn [copy_cache]; [apply keeps_refl|].
  specialize (IH (copy_sobj (copy_dobj st k) s)). destruct (copy_cache _ c) as [st2 r]. cbn [fst] in *.
  eapply keeps_trans; [apply copy_dobj_keeps|]. eapply keeps_trans; [apply copy_sobj_keeps|exact IH].
Qed.

Lemma step_keeps st a : ~ is_write a -> keeps (mem st) (mem (step rowsum digest st a)).
Proof.
  intros Hw. destruct a as [b|x b|nf X y ids|d q|d fs|d tr va pm|d n q|e lr base|m d det cache|m|m n]; cbn [step].
  - apply keeps_app.
  - exfalso. apply Hw. exact I.
  - unfold make_dataset. destruct (ds_init _ _ _ _); cbn [fst]; [apply install_keeps|apply keeps_refl].
  - unfold heap_subset. destruct (subset _ _); cbn [fst]; [apply install_copy_keeps|apply keeps_refl].
  - unfold heap_subset_features, alloc. destruct (subset_features _ _); cbn [fst]; [|apply keeps_refl].
    eapply keeps_trans; [|apply install_keeps]. apply keeps_app.
  - unfold heap_split. destruct (split _ _ _ _) as [[[x y] z]|]; cbn [fst]; [|apply keeps_refl].
    eapply keeps_trans; [|apply install_copy_keeps]. destruct y as [y|]; [|apply install_copy_keeps].
    eapply keeps_trans; apply install_copy_keeps.
  - unfold heap_kfold. destruct (kfold _ _ _) as [fs|]; cbn [fst]; [|apply keeps_refl].
    clear d n q Hw. revert st. induction fs as [|[[x y] z] fs IH]; intros st; cbn [fold_left]; [apply keeps_refl|].
    eapply keeps_trans; [|apply IH]. eapply keeps_trans; [apply install_copy_keeps|].
    eapply keeps_trans; apply install_copy_keeps.
  - destruct (install_model_parts st e lr base []) as (h & m & -> & _ & _ & _ & _ & _ & K & _). exact K.
  - unfold heap_score. destruct (check_features _ _); [|apply keeps_refl].
    pose proof (hash_keeps st d) as H. destruct (hash_of digest st d) as [st1 z]. cbn [fst] in H. rewrite <- H.
    destruct (cache_lookup _ _ _ _) as [f|]; [|apply keeps_refl].
    destruct (match f with None => None | Some i => _ end); [apply keeps_refl|]. apply fresh_keeps.
  - apply keeps_refl.
  - unfold heap_copy. pose proof (copy_cache_keeps (o_cache (mobj_at st m)) st) as H.
    destruct (copy_cache st _) as [st1 c]. cbn [fst] in H.
    destruct (install_model_parts st1 (ensemble_of (mem st) (mobj_at st m)) (o_lr (mobj_at st m)) (o_base (mobj_at st m)) c)
      as (h & m' & E & _ & _ & _ & _ & _ & K & _). rewrite E.
    assert (K' : keeps (mem st) h) by (eapply keeps_trans; eauto).
    destruct n as [n|]; [|exact K']. destruct (prune_mobj _ _ n); exact K'.
Qed.

Lemma run_keeps p : forall st x, (forall y b, In (WriteArray y b) p -> y <> x) -> x < length (mem st) ->
  nth_error (mem (run rowsum digest st p)) x = nth_error (mem st) x.
Proof.
  induction p as [|a p IH]; intros st x H Hx; [reflexivity|].
  change (run rowsum digest st (a :: p)) with (run rowsum digest (step rowsum digest st a) p).
  assert (Hw : is_write a \/ ~ is_write a) by (destruct a; cbn; tauto).
  assert (E : nth_error (mem (step rowsum digest st a)) x = nth_error (mem st) x /\ x < length (mem (step rowsum digest st a))).
  { destruct Hw as [Hw|Hw].
    - destruct a as [?|y b| | | | | | | | |]; try contradiction. cbn [step mem]. unfold write. rewrite upd_length.
      split; [|exact Hx]. apply nth_error_upd_neq. apply (H y b). left. reflexivity.
    - destruct (step_keeps st a Hw) as [K1 K2]. split; [apply K2; exact Hx|lia]. }
  destruct E as [E1 E2]. rewrite IH; auto. intros y b Hy. apply (H y b). right. exact Hy.
Qed.

(** ** Writes *)
Lemma run_writes w : forall st,
  dss (run rowsum digest st (writes w)) = dss st /\ scs (run rowsum digest st (writes w)) = scs st /\
  mos (run rowsum digest st (writes w)) = mos st /\
  forall l, (forall x b, In (x, b) w -> ~ In x l) -> agree (mem st) (mem (run rowsum digest st (writes w))) l.
Proof.
  induction w as [|[x b] w IH]; intros st.
  - cbn. repeat split.
  - change (run rowsum digest st (writes ((x, b) :: w)))
      with (run rowsum digest (step rowsum digest st (WriteArray x b)) (writes w)).
    destruct (IH (step rowsum digest st (WriteArray x b))) as (A & B & C & D).
    split; [exact A|]. split; [exact B|]. split; [exact C|].
    intros l Hl y Hy. rewrite (D l) by (try exact Hy; intros x' b' Hx; apply (Hl x' b'); right; exact Hx).
    cbn [step mem]. apply agree_write with (l := l); [|exact Hy]. apply (Hl x b). left. reflexivity.
Qed.
Lemma writes_dataset st w i :
  (forall x b, In (x, b) w -> ~ In x (arrays_of_dataset (nth i (dss st) no_dobj))) ->
  dataset_at (run rowsum digest st (writes w)) i = dataset_at st i.
Proof.
  intros H. destruct (run_writes w st) as (A & _ & _ & D). unfold dataset_at. rewrite A. apply dataset_agree. apply D. exact H.
Qed.

Lemma writes_model st w m : (forall x b, In (x, b) w -> ~ model_reach st m x) ->
  model_at (run rowsum digest st (writes w)) m = model_at st m.
Proof.
  intros H. destruct (run_writes w st) as (A & B & C & D). unfold model_at, mobj_at. rewrite C. fold (mobj_at st m).
  unfold model_of. f_equal.
  - apply ensemble_agree. apply D. intros x b Hx Hin. apply (H x b Hx). left. exact Hin.
  - apply map_ext_in. intros [[k z] s] Hin. unfold entry_of. cbn [fst snd]. f_equal; [f_equal|].
    + apply writes_dataset. intros x b Hx Hi. apply (H x b Hx). right. exists k, z, s. auto.
    + unfold scorer_at. rewrite B. apply scorer_agree. apply D. intros x b Hx Hi. apply (H x b Hx). right. exists k, z, s. auto.
Qed.

Lemma reach_in_memory st m x : valid st -> m < length (mos st) -> model_reach st m x -> x < length (mem st).
Proof.
  intros (V1 & V2 & V3) Hm H. destruct (V3 (mobj_at st m)) as [A C]; [apply in_nth_lt; auto|].
  destruct H as [H|(k & z & s & Hin & H)]; [apply A; exact H|]. destruct (C k z s Hin) as (Hk & Hs & _).
  destruct H as [H|H]; [eapply V1|eapply V2]; try exact H; apply in_nth_lt; auto.
Qed.

(** ** The data sets made by subset, split and kfold *)
Definition disjoint_new st st' : Prop :=
  forall i j x, length (dss st) <= i -> i < j -> j < length (dss st') ->
    In x (arrays_of_dataset (nth i (dss st') no_dobj)) -> ~ In x (arrays_of_dataset (nth j (dss st') no_dobj)).
Definition apart_new st st' : Prop := separate digest st st' /\ disjoint_new st st'.

Lemma apart_refl st : inv digest st -> apart_new st st.
Proof. intros I. split; [apply separate_refl; auto|]. intros i j x. lia. Qed.
Lemma apart_trans a b c : apart_new a b -> apart_new b c -> apart_new a c.
Proof.
  intros [A1 A2] [B1 B2]. split; [eapply separate_trans; eauto|]. intros i j x H1 H2 H3 Hi Hj.
  assert (Ib : inv digest b) by apply A1.
  destruct B1 as [(_ & (Gm & _ & Gd & _) & _) [F _]].
  destruct (Nat.lt_ge_cases i (length (dss b))) as [Li|Li].
  - rewrite (same_dobj_arrays _ _ (Gd i Li)) in Hi.
    destruct (Nat.lt_ge_cases j (length (dss b))) as [Lj|Lj].
    + rewrite (same_dobj_arrays _ _ (Gd j Lj)) in Hj. apply (A2 i j x); auto.
    + specialize (F j x Lj H3 Hj). destruct Ib as [(V & _) _].
      assert (x < length (mem b)); [|lia]. eapply V; [|exact Hi]. apply in_nth_lt; auto.
  - apply (B2 i j x); auto.
Qed.
Lemma install_copy_apart st v : inv digest st -> apart_new st (install_copy st v).
Proof.
  intros I. split; [apply install_copy_separate; auto|].
  destruct (install_copy_parts st v) as (h & d & -> & _). intros i j x. cbn [dss]. rewrite app_length1. lia.
Qed.
Lemma parts_apart st a : inv digest st -> makes_parts a -> apart_new st (step rowsum digest st a).
Proof.
  intros I P. destruct a as [b|x b|nf X y ids|d q|d fs|d tr va pm|d n q|e lr base|m d det cache|m|m n]; try contradiction; cbn [step].
  - unfold heap_subset. destruct (subset _ _); cbn [fst]; [apply install_copy_apart|apply apart_refl]; auto.
  - unfold heap_split. destruct (split _ _ _ _) as [[[x y] z]|]; cbn [fst]; [|apply apart_refl; auto].
    pose proof (install_copy_apart st x I) as Q1.
    assert (Q2 : apart_new st (match y with Some v => install_copy (install_copy st x) v | None => install_copy st x end)).
    { destruct y as [v|]; [|exact Q1]. eapply apart_trans; [exact Q1|]. apply install_copy_apart. apply Q1. }
    eapply apart_trans; [exact Q2|]. apply install_copy_apart. apply Q2.
  - unfold heap_kfold. destruct (kfold _ _ _) as [fs|]; cbn [fst]; [|apply apart_refl; auto].
    clear d n q P. revert st I. induction fs as [|[[x y] z] fs IH]; intros st I; cbn [fold_left]; [apply apart_refl; auto|].
    pose proof (install_copy_apart st x I) as Q1.
    pose proof (install_copy_apart _ y (proj1 (proj1 (proj1 Q1)))) as Q2.
    pose proof (install_copy_apart _ z (proj1 (proj1 (proj1 Q2)))) as Q3.
    assert (Q : apart_new st (install_copy (install_copy (install_copy st x) y) z)).
    { eapply apart_trans; [exact Q1|]. eapply apart_trans; [exact Q2|exact Q3]. }
    eapply apart_trans; [exact Q|]. apply IH. apply Q.
Qed.

(** Writing into arrays that existed before does not change the parts. *)
Lemma parts_independent st a w i : inv digest st -> makes_parts a ->
  let st' := step rowsum digest st a in
  (forall x b, In (x, b) w -> x < length (mem st)) -> length (dss st) <= i -> i < length (dss st') ->
  dataset_at (run rowsum digest st' (writes w)) i = dataset_at st' i.
Proof.
  intros I P st' Hw H1 H2. destruct (parts_apart st a I P) as [[_ [F _]] _]. apply writes_dataset.
  intros x b Hx Hin. specialize (Hw x b Hx). specialize (F i x H1 H2 Hin). lia.
Qed.
(** Writing into a part changes no other data set and no model. *)
Lemma parts_private st a w i : inv digest st -> makes_parts a ->
  let st' := step rowsum digest st a in
  length (dss st) <= i -> i < length (dss st') ->
  (forall x b, In (x, b) w -> In x (arrays_of_dataset (nth i (dss st') no_dobj))) ->
  (forall j, j < length (dss st') -> j <> i -> dataset_at (run rowsum digest st' (writes w)) j = dataset_at st' j) /\
  (forall m, m < length (mos st') -> model_at (run rowsum digest st' (writes w)) m = model_at st' m).
Proof.
  intros I P st' H1 H2 Hw. destruct (parts_apart st a I P) as [[(I' & G & Em) [F _]] Dj]. fold st' in I', G, Em, F, Dj.
  assert (IV := I). destruct IV as [V _].
  assert (G' := G). destruct G' as (_ & _ & Gd & _).
  split.
  - intros j Hj Hne. apply writes_dataset. intros x b Hx Hin. specialize (Hw x b Hx).
    destruct (Nat.lt_ge_cases j (length (dss st))) as [Lj|Lj].
    + rewrite (same_dobj_arrays _ _ (Gd j Lj)) in Hin. specialize (F i x H1 H2 Hw).
      destruct V as (V & _). assert (x < length (mem st)); [|lia]. eapply V; [|exact Hin]. apply in_nth_lt; auto.
    + destruct (Nat.lt_gt_cases i j) as [Hc _]. destruct (Hc (not_eq_sym Hne)) as [Hlt|Hlt].
      * apply (Dj i j x); auto.
      * apply (Dj j i x); auto.
  - intros m Hm. apply writes_model. intros x b Hx Hr. specialize (Hw x b Hx). specialize (F i x H1 H2 Hw).
    rewrite Em in Hm. assert (Hr' : model_reach st m x).
    { unfold model_reach, mobj_at in *. rewrite Em in Hr. destruct Hr as [Hr|(k & z & s & Hin & Hr)]; [left; exact Hr|].
      right. exists k, z, s. split; [exact Hin|]. destruct V as (_ & _ & V3).
      destruct (V3 (nth m (mos st) no_mobj)) as [_ C]; [apply in_nth_lt; auto|].
      destruct (C k z s Hin) as (Hk & Hs & _). destruct G as (_ & _ & _ & _ & G5).
      rewrite (same_dobj_arrays _ _ (Gd k Hk)), (G5 s Hs) in Hr. exact Hr. }
    pose proof (reach_in_memory st m x V Hm Hr'). lia.
Qed.

(** ** The values of the new data sets *)
Lemma new_refl st : new_datasets st st = [].
Proof. unfold new_datasets. rewrite Nat.sub_diag. reflexivity. Qed.
Lemma new_trans a b c : inv digest b -> grows a b -> grows b c ->
  new_datasets a c = new_datasets a b ++ new_datasets b c.
Proof.
  intros I (_ & L1 & _) G. assert (G' := G). destruct G' as (_ & L2 & _). unfold new_datasets.
  replace (length (dss c) - length (dss a)) with ((length (dss b) - length (dss a)) + (length (dss c) - length (dss b))) by lia.
  rewrite seq_app, map_app. replace (length (dss a) + (length (dss b) - length (dss a))) with (length (dss b)) by lia.
  f_equal. apply map_ext_in. intros i Hi. apply in_seq in Hi. apply dataset_at_grows; [apply I|exact G|lia].
Qed.
Lemma install_copy_new st v : new_datasets st (install_copy st v) = [v].
Proof.
  destruct (install_copy_parts st v) as (h & d & -> & _ & E). unfold new_datasets. cbn [dss].
  rewrite app_length1. replace (S (length (dss st)) - length (dss st)) with 1 by lia. cbn [seq map].
  unfold dataset_at. cbn [dss mem]. rewrite app_nth2 by lia. rewrite Nat.sub_diag. cbn [nth]. rewrite E. reflexivity.
Qed.
Lemma subset_value st d q :
  match subset q (dataset_at st d) with
  | Ok v => snd (heap_subset st d q) = Ok tt /\ new_datasets st (fst (heap_subset st d q)) = [v]
  | Err e => heap_subset st d q = (st, Err e)
  end.
Proof.
  unfold heap_subset. destruct (subset _ _); [|reflexivity]. cbn [fst snd]. split; [reflexivity|apply install_copy_new].
Qed.
Lemma split_value st d tr va pm : inv digest st ->
  match split tr va pm (dataset_at st d) with
  | Ok (a, b, c) => snd (heap_split st d tr va pm) = Ok tt /\
                    new_datasets st (fst (heap_split st d tr va pm)) = [a] ++ opt_list b ++ [c]
  | Err e => heap_split st d tr va pm = (st, Err e)
  end.
Proof.
  intros I. unfold heap_split. destruct (split _ _ _ _) as [[[a b] c]|]; [|reflexivity]. cbn [fst snd]. split; [reflexivity|].
  pose proof (install_copy_inv digest st a I) as (I1 & G1 & _).
  destruct b as [b|]; cbn [opt_list app].
  - pose proof (install_copy_inv digest _ b I1) as (I2 & G2 & _).
    pose proof (install_copy_inv digest _ c I2) as (I3 & G3 & _).
    rewrite (new_trans st (install_copy (install_copy st a) b)), (new_trans st (install_copy st a)), !install_copy_new;
      auto. eapply grows_trans; eauto.
  - pose proof (install_copy_inv digest _ c I1) as (I3 & G3 & _).
    rewrite (new_trans st (install_copy st a)), !install_copy_new; auto.
Qed.
Lemma kfold_value st d n q : inv digest st ->
  match kfold n q (dataset_at st d) with
  | Ok fs => snd (heap_kfold st d n q) = Ok tt /\
             new_datasets st (fst (heap_kfold st d n q)) = flat_map (fun f => let '(a, b, c) := f in [a; b; c]) fs
  | Err e => heap_kfold st d n q = (st, Err e)
  end.
Proof.
  intros I. unfold heap_kfold. destruct (kfold _ _ _) as [fs|]; [|reflexivity]. cbn [fst snd]. split; [reflexivity|].
  clear d n q. revert st I. induction fs as [|[[a b] c] fs IH]; intros st I; cbn [fold_left flat_map]; [apply new_refl|].
  pose proof (install_copy_inv digest st a I) as (I1 & G1 & _).
  pose proof (install_copy_inv digest _ b I1) as (I2 & G2 & _).
  pose proof (install_copy_inv digest _ c I2) as (I3 & G3 & _).
  set (s1 := install_copy st a) in *. set (s2 := install_copy s1 b) in *. set (s3 := install_copy s2 c) in *.
  assert (G : grows st s3) by (eapply grows_trans; [exact G1|eapply grows_trans; eauto]).
  assert (Gf : grows s3 (fold_left (fun s f => let '(a, b, c) := f in install_copy (install_copy (install_copy s a) b) c) fs s3)).
  { clear IH. clearbody s3. clear - I3. revert s3 I3. induction fs as [|[[a b] c] fs IH]; intros s I; cbn [fold_left]; [apply grows_refl|].
    pose proof (install_copy_inv digest s a I) as (J1 & G1 & _).
    pose proof (install_copy_inv digest _ b J1) as (J2 & G2 & _).
    pose proof (install_copy_inv digest _ c J2) as (J3 & G3 & _).
    eapply grows_trans; [exact G1|]. eapply grows_trans; [exact G2|]. eapply grows_trans; [exact G3|]. apply IH. exact J3. }
  rewrite (new_trans st s3 _ I3 G Gf). rewrite (IH s3 I3). f_equal.
  assert (G12 : grows st s2) by exact (grows_trans _ _ _ G1 G2).
  rewrite (new_trans st s2 s3 I2 G12 G3), (new_trans st s1 s2 I1 G1 G2).
  unfold s1, s2, s3. rewrite !install_copy_new. reflexivity.
Qed.

(** subset_features and the constructor. *)
Lemma install_value st X y v : inv digest st -> X < length (mem st) -> y < length (mem st) ->
  ds_X v = rows (mem st) X -> ds_y v = floats (mem st) y ->
  new_datasets st (install st X y v) = [v] /\
  d_X (nth (length (dss st)) (dss (install st X y v)) no_dobj) = X /\
  d_y (nth (length (dss st)) (dss (install st X y v)) no_dobj) = y /\
  length (dss (install st X y v)) = S (length (dss st)).
Proof.
  intros I HX Hy EX Ey. unfold install, alloc. unfold new_datasets. cbn [dss mem].
  rewrite (app_length1 (dss st)). replace (S (length (dss st)) - length (dss st)) with 1 by lia. cbn [seq map].
  unfold dataset_at. cbn [dss mem]. rewrite app_nth2 by lia. rewrite Nat.sub_diag. cbn [nth d_X d_y].
  split; [|auto]. unfold dataset_of. cbn [d_X d_y d_qids d_offs d_nf].
  assert (K : keeps (mem st) ((mem st ++ [Ints (ds_qids v)]) ++ [Ints (map Z.of_nat (ds_offs v))])).
  { rewrite <- app_assoc. apply keeps_app. }
  rewrite (rows_keeps _ _ _ K HX), (floats_keeps _ _ _ K Hy). unfold ints. rewrite nth_app_2, nth_app_last, map_of_to.
  rewrite <- EX, <- Ey. destruct v; reflexivity.
Qed.
Lemma ds_init_parts {V} nf X (y : list V) ids v : ds_init nf X y ids = Ok v -> ds_X v = X /\ ds_y v = y.
Proof.
  unfold ds_init. destruct (negb _); [discriminate|]. destruct (compact_ids ids). intros E. injection E as <-. auto.
Qed.
Lemma make_dataset_value st nf X y ids : inv digest st -> X < length (mem st) -> y < length (mem st) ->
  let r := make_dataset st nf X y ids in
  match ds_init nf (rows (mem st) X) (floats (mem st) y) (ints (mem st) ids) with
  | Ok v => snd r = Ok tt /\ new_datasets st (fst r) = [v] /\
            d_X (nth (length (dss st)) (dss (fst r)) no_dobj) = X /\
            d_y (nth (length (dss st)) (dss (fst r)) no_dobj) = y
  | Err e => r = (st, Err e)
  end.
Proof.
  intros I HX Hy r. unfold r, make_dataset. destruct (ds_init _ _ _ _) as [v|] eqn:E; [|reflexivity]. cbn [fst snd].
  destruct (ds_init_parts _ _ _ _ _ E) as [E1 E2].
  destruct (install_value st X y v I HX Hy E1 E2) as (A & B & C & _). auto.
Qed.
Lemma subset_features_value st d fs : inv digest st -> d < length (dss st) ->
  let r := heap_subset_features st d fs in
  let o := nth (length (dss st)) (dss (fst r)) no_dobj in
  match subset_features fs (dataset_at st d) with
  | Ok v => snd r = Ok tt /\ new_datasets st (fst r) = [v] /\
            d_y o = d_y (nth d (dss st) no_dobj) /\ length (mem st) <= d_X o
  | Err e => r = (st, Err e)
  end.
Proof.
  intros I Hd. cbv zeta. unfold heap_subset_features. destruct (subset_features _ _) as [v|] eqn:E; [|reflexivity].
  unfold alloc. cbn [fst snd].
  assert (Ey : ds_y v = floats (mem st) (d_y (nth d (dss st) no_dobj))).
  { unfold subset_features in E. destruct (mapM _ _); cbn [bind] in E; [|discriminate].
    apply ds_init_parts in E. apply E. }
  destruct (inv_alloc digest st (Rows (ds_X v)) I) as [I1 G1].
  set (st1 := mkState (mem st ++ [Rows (ds_X v)]) (dss st) (scs st) (mos st)) in *.
  assert (Hy : d_y (nth d (dss st) no_dobj) < length (mem st)).
  { destruct I as [(V & _) _]. eapply V; [apply in_nth_lt; exact Hd|]. right. left. reflexivity. }
  destruct (install_value st1 (length (mem st)) (d_y (nth d (dss st) no_dobj)) v I1) as (A & B & C & D).
  - cbn [mem st1]. rewrite app_length1. lia.
  - cbn [mem st1]. rewrite app_length1. lia.
  - unfold rows. cbn [mem st1]. rewrite nth_app_last. reflexivity.
  - rewrite Ey. symmetry. apply floats_keeps; [apply keeps_app|exact Hy].
  - split; [reflexivity|]. split; [exact A|]. split; [exact C|]. change (dss st1) with (dss st) in B. rewrite B. lia.
Qed.

(** ** Copies of models *)
Lemma copy_new st m n mm : inv digest st -> m < length (mos st) -> copy (model_at st m) n = Ok mm ->
  let st' := fst (heap_copy st m n) in let j := length (mos st) in
  j < length (mos st') /\ (forall x, model_reach st' j x -> length (mem st) <= x) /\
  (forall i x, i < j -> model_reach st' i x -> x < length (mem st)) /\
  (forall i x, i < length (dss st) -> In x (arrays_of_dataset (nth i (dss st') no_dobj)) -> x < length (mem st)).
Proof.
  intros I Hm E st' j. destruct (copy_ok digest st m n I Hm) as (I' & G & [F1 F2] & C). rewrite E in C.
  destruct C as (_ & [m' Em] & _ & _ & _ & _ & Ha & Hc). fold st' in I', G, F1, F2, Em, Ha, Hc. fold j in Ha, Hc.
  assert (IV := I). destruct IV as [(V1 & V2 & V3) _].
  assert (G' := G). destruct G' as (_ & _ & Gd & _ & Gs).
  assert (Hlt : j < length (mos st')) by (rewrite Em, app_length1; unfold j; lia).
  split; [exact Hlt|]. split; [|split].
  - intros x [H|(k & z & s & Hin & H)]; [apply Ha; exact H|].
    destruct (Hc k z s Hin) as [Hk Hs].
    destruct I' as [(W1 & W2 & W3) _]. destruct (W3 (mobj_at st' j)) as [_ C]; [apply in_nth_lt; auto|].
    destruct (C k z s Hin) as (Hk' & Hs' & _).
    destruct H as [H|H]; [apply (F1 k x)|apply (F2 s x)]; auto.
  - intros i x Hi Hr. assert (Emo : mobj_at st' i = mobj_at st i) by (unfold mobj_at; rewrite Em; apply app_nth1; exact Hi).
    apply (reach_in_memory st i x (proj1 I) Hi). unfold model_reach in *. rewrite Emo in Hr.
    destruct Hr as [Hr|(k & z & s & Hin & Hr)]; [left; exact Hr|]. right. exists k, z, s. split; [exact Hin|].
    destruct (V3 (mobj_at st i)) as [_ C]; [apply in_nth_lt; auto|]. destruct (C k z s Hin) as (Hk & Hs & _).
    rewrite (same_dobj_arrays _ _ (Gd k Hk)), (Gs s Hs) in Hr. exact Hr.
  - intros i x Hi Hx. rewrite (same_dobj_arrays _ _ (Gd i Hi)) in Hx. eapply V1; [|exact Hx]. apply in_nth_lt; auto.
Qed.

Lemma copy_independent st m n mm w : inv digest st -> m < length (mos st) -> copy (model_at st m) n = Ok mm ->
  let st' := fst (heap_copy st m n) in let j := length (mos st) in
  (forall x b, In (x, b) w -> x < length (mem st)) ->
  model_at (run rowsum digest st' (writes w)) j = model_at st' j.
Proof.
  intros I Hm E st' j Hw. destruct (copy_new st m n mm I Hm E) as (_ & H & _). apply writes_model.
  intros x b Hx Hr. specialize (Hw x b Hx). specialize (H x Hr). lia.
Qed.
Lemma copy_private st m n mm w : inv digest st -> m < length (mos st) -> copy (model_at st m) n = Ok mm ->
  let st' := fst (heap_copy st m n) in let j := length (mos st) in
  (forall x b, In (x, b) w -> model_reach st' j x) ->
  (forall i, i < j -> model_at (run rowsum digest st' (writes w)) i = model_at st' i) /\
  (forall i, i < length (dss st) -> dataset_at (run rowsum digest st' (writes w)) i = dataset_at st' i).
Proof.
  intros I Hm E st' j Hw. destruct (copy_new st m n mm I Hm E) as (_ & H & H1 & H2). split.
  - intros i Hi. apply writes_model. intros x b Hx Hr. specialize (H x (Hw x b Hx)). specialize (H1 i x Hi Hr). lia.
  - intros i Hi. apply writes_dataset. intros x b Hx Hr. specialize (H x (Hw x b Hx)). specialize (H2 i x Hi Hr). lia.
Qed.

(** The copy, as a value. *)
Lemma copy_value st m n : inv digest st -> m < length (mos st) ->
  let r := heap_copy st m n in let j := length (mos st) in
  match copy (model_at st m) n with
  | Err e => snd r = Err e /\ mos (fst r) = mos st
  | Ok mm => snd r = Ok tt /\ length (mos (fst r)) = S j /\
      m_ens (model_at (fst r) j) = m_ens mm /\ m_lr (model_at (fst r) j) = m_lr mm /\
      m_base (model_at (fst r) j) = m_base mm /\
      map contents (m_cache (model_at (fst r) j)) = map contents (m_cache mm)
  end.
Proof.
  intros I Hm r j. destruct (copy_ok digest st m n I Hm) as (_ & _ & _ & C).
  destruct (copy (model_at st m) n) as [mm|e]; [|exact C].
  destruct C as (C1 & [m' C2] & C3 & C4 & C5 & C6 & _). split; [exact C1|]. split; [|auto].
  unfold r. rewrite C2, app_length1. reflexivity.
Qed.

(** ** Who owns the scores *)
Lemma answers_owned st m d det st' a : inv digest st -> m < length (mos st) -> d < length (dss st) ->
  heap_score rowsum digest st m d det false = (st', Ok a) ->
  (exists k z s, In (k, z, s) (o_cache (mobj_at st m)) /\ a = harray_of det (nth s (scs st) empty_sobj)) \/
  (forall x, In x (arrays_of_answer a) -> length (mem st) <= x /\ ~ guarded st' x).
Proof.
  intros I Hm Hd. unfold heap_score. destruct (check_features _ _) as [u|]; [|discriminate].
  destruct (hash_quiet digest st d I Hd) as (Q & Hh & Hz & Hsc & Hmem).
  destruct (hash_of digest st d) as [st1 z]. cbn [fst snd] in *.
  assert (Q' := Q). destruct Q' as (I1 & G1 & E1).
  assert (Hm1 : m < length (mos st1)) by (rewrite E1; exact Hm).
  assert (Hd1 : d < length (dss st1)) by (destruct G1 as (_ & G1 & _); lia).
  assert (Emo : forall j, mobj_at st1 j = mobj_at st j) by (intros j; unfold mobj_at; rewrite E1; reflexivity).
  assert (Eds : dataset_at st1 d = dataset_at st d) by (apply dataset_at_grows; auto; apply I).
  assert (Hz1 : z = ds_hash digest (dataset_at st1 d)) by (rewrite Eds; exact Hz).
  destruct (cache_lookup st1 (o_cache (mobj_at st m)) d z) as [found|] eqn:El; [|discriminate].
  intros H.
  assert (Hcase : (exists i, found = Some i /\ a = harray_of det (nth i (scs st1) empty_sobj)) \/
                  score_fresh rowsum st1 m d z det false = (st', Ok a)).
  { destruct found as [i|]; [|right; exact H].
    destruct (det && negb (is_some (s_partial (nth i (scs st1) empty_sobj)))); [right; exact H|].
    left. exists i. split; [reflexivity|]. injection H as _ <-. reflexivity. }
  destruct Hcase as [(i & -> & Ea)|Hf].
  - left. destruct (lookup_in _ _ _ _ _ El) as (k & zk & Hin). exists k, zk, i. split; [exact Hin|]. rewrite <- Hsc. exact Ea.
  - right. assert (Hh1 : d_hash (nth d (dss st1) no_dobj) = Some (ds_hash digest (dataset_at st1 d))) by congruence.
    pose proof (fresh_score rowsum digest st1 m d det false I1 Hm1 Hd1 Hh1) as F. cbv zeta in F. rewrite <- Hz1, Hf in F.
    cbn [fst snd] in F. destruct F as ((A1 & A2 & A3 & A4 & A5 & A6 & _) & F2 & F3 & _). specialize (F3 eq_refl).
    intros x Hx. specialize (F2 a x eq_refl Hx). rewrite <- Hmem. split; [exact F2|].
    assert (IV := I1). destruct IV as [(V1 & V2 & V3) _].
    assert (G' := A2). destruct G' as (_ & _ & Gd & _ & Gs).
    assert (Eds' : dss st' = dss st1).
    { unfold score_fresh in Hf. destruct (fill _ _ _ _ _) as [[h s]|]; [|discriminate Hf]. injection Hf as <- _. reflexivity. }
    intros [(o & Ho & _ & Hi)|[(o & Ho & Hi)|(o & k & zk & s & Ho & Hi & Hs)]].
    + rewrite Eds' in Ho. assert (x < length (mem st1)); [|lia]. eapply V1; eauto.
    + destruct (In_nth _ _ no_mobj Ho) as (j & Hj & <-). fold (mobj_at st' j) in Hi. rewrite A3 in Hj.
      assert (Hi' : In x (arrays_of_model (mobj_at st1 j))).
      { destruct (Nat.eq_dec j m) as [->|Hne]; [rewrite <- A5; exact Hi|]. rewrite <- A4 by exact Hne. exact Hi. }
      assert (x < length (mem st1)); [|lia]. eapply (proj1 (V3 _ (in_nth_lt _ _ no_mobj Hj))). exact Hi'.
    + destruct (In_nth _ _ no_mobj Ho) as (j & Hj & <-). fold (mobj_at st' j) in Hi. rewrite A3 in Hj.
      assert (Hi' : In (k, zk, s) (o_cache (mobj_at st1 j))).
      { destruct (Nat.eq_dec j m) as [->|Hne]; [rewrite <- F3; exact Hi|]. rewrite <- A4 by exact Hne. exact Hi. }
      destruct (V3 _ (in_nth_lt _ _ no_mobj Hj)) as [_ C]. destruct (C k zk s Hi') as (_ & Hs' & _).
      rewrite (Gs s Hs') in Hs. assert (x < length (mem st1)); [|lia]. eapply V2; [|exact Hs]. apply in_nth_lt; auto.
Qed.
End Frame.
