(** Property C88 (sharing of arrays between objects). *)
From Coq Require Import List ZArith QArith Reals Lia Bool.
From Verif Require Import Base Lists Num M_Dataset S_Dataset M_NDCG M_Ensemble S_Ensemble
  M_Heap S_Heap L_Heap L_Heap2 L_Heap3 L_Heap4 P_Ensemble.
Import ListNotations.
Local Open Scope nat_scope.

(** ** Only the client writes *)

(** No library call changes an array that existed before it. *)
Theorem C88_library_writes_nothing : forall (N : num) (rowsum : list N -> N) digest (st : state N) (a : action N) x,
  ~ is_write a -> x < length (mem st) ->
  nth_error (mem (step rowsum digest st a)) x = nth_error (mem st) x.
Proof. intros N rowsum digest st a x Hw Hx. exact (proj2 (step_keeps rowsum digest st a Hw) x Hx). Qed.
Print Assumptions C88_library_writes_nothing.

Theorem C88_arrays_change_by_client_only : forall (N : num) (rowsum : list N -> N) digest (st : state N) p x,
  (forall y b, In (WriteArray y b) p -> y <> x) -> x < length (mem st) ->
  nth_error (mem (run rowsum digest st p)) x = nth_error (mem st) x.
Proof. intros N rowsum digest st p x H Hx. exact (run_keeps rowsum digest p st x H Hx). Qed.
Print Assumptions C88_arrays_change_by_client_only.

(** The states reached by careful clients: no dangling reference, hashes up to date. *)
Theorem C88_careful_states : forall (N : num) (rowsum : list N -> N) digest p,
  careful rowsum digest start p ->
  valid (run rowsum digest start p) /\ stable digest (run rowsum digest start p).
Proof. intros N rowsum digest p C. exact (proj1 (run_ok rowsum digest p start (inv_start digest) C)). Qed.
Print Assumptions C88_careful_states.

(** ** Data sets *)
Theorem C88_subset_value : forall (N : num) (st : state N) d q,
  match subset q (dataset_at st d) with
  | Ok v => snd (heap_subset st d q) = Ok tt /\ new_datasets st (fst (heap_subset st d q)) = [v]
  | Err e => heap_subset st d q = (st, Err e)
  end.
Proof. exact (@subset_value). Qed.
Print Assumptions C88_subset_value.

Theorem C88_split_value : forall (N : num) digest (st : state N) d tr va pm,
  valid st /\ stable digest st ->
  match split tr va pm (dataset_at st d) with
  | Ok (a, b, c) => snd (heap_split st d tr va pm) = Ok tt /\
                    new_datasets st (fst (heap_split st d tr va pm)) = [a] ++ opt_list b ++ [c]
  | Err e => heap_split st d tr va pm = (st, Err e)
  end.
Proof. exact (@split_value). Qed.
Print Assumptions C88_split_value.

Theorem C88_kfold_value : forall (N : num) digest (st : state N) d n q,
  valid st /\ stable digest st ->
  match kfold n q (dataset_at st d) with
  | Ok fs => snd (heap_kfold st d n q) = Ok tt /\
             new_datasets st (fst (heap_kfold st d n q)) = flat_map (fun f => let '(a, b, c) := f in [a; b; c]) fs
  | Err e => heap_kfold st d n q = (st, Err e)
  end.
Proof. exact (@kfold_value). Qed.
Print Assumptions C88_kfold_value.

(** Parts do not see what is written later into the arrays that existed before. *)
Theorem C88_parts_are_independent : forall (N : num) (rowsum : list N -> N) digest (st : state N) a w i,
  valid st /\ stable digest st -> makes_parts a ->
  let st' := step rowsum digest st a in
  (forall x b, In (x, b) w -> x < length (mem st)) -> length (dss st) <= i -> i < length (dss st') ->
  dataset_at (run rowsum digest st' (writes w)) i = dataset_at st' i.
Proof. exact (@parts_independent). Qed.
Print Assumptions C88_parts_are_independent.

(** What is written into the arrays of a part is seen by no other data set and no model. *)
Theorem C88_parts_are_private : forall (N : num) (rowsum : list N -> N) digest (st : state N) a w i,
  valid st /\ stable digest st -> makes_parts a ->
  let st' := step rowsum digest st a in
  length (dss st) <= i -> i < length (dss st') ->
  (forall x b, In (x, b) w -> In x (arrays_of_dataset (nth i (dss st') no_dobj))) ->
  (forall j, j < length (dss st') -> j <> i -> dataset_at (run rowsum digest st' (writes w)) j = dataset_at st' j) /\
  (forall m, m < length (mos st') -> model_at (run rowsum digest st' (writes w)) m = model_at st' m).
Proof. exact (@parts_private). Qed.
Print Assumptions C88_parts_are_private.

(** subset_features copies the matrix and shares the labels. *)
Theorem C88_feature_subset_shares_labels : forall (N : num) digest (st : state N) d fs,
  valid st /\ stable digest st -> d < length (dss st) ->
  let r := heap_subset_features st d fs in
  let o := nth (length (dss st)) (dss (fst r)) no_dobj in
  match subset_features fs (dataset_at st d) with
  | Ok v => snd r = Ok tt /\ new_datasets st (fst r) = [v] /\
            d_y o = d_y (nth d (dss st) no_dobj) /\ length (mem st) <= d_X o
  | Err e => r = (st, Err e)
  end.
Proof. exact (@subset_features_value). Qed.
Print Assumptions C88_feature_subset_shares_labels.

(** The constructor keeps the arrays it is given. *)
Theorem C88_constructor_shares : forall (N : num) digest (st : state N) nf X y ids,
  valid st /\ stable digest st -> X < length (mem st) -> y < length (mem st) ->
  let r := make_dataset st nf X y ids in
  match ds_init nf (M_Heap.rows (mem st) X) (floats (mem st) y) (ints (mem st) ids) with
  | Ok v => snd r = Ok tt /\ new_datasets st (fst r) = [v] /\
            d_X (nth (length (dss st)) (dss (fst r)) no_dobj) = X /\
            d_y (nth (length (dss st)) (dss (fst r)) no_dobj) = y
  | Err e => r = (st, Err e)
  end.
Proof. exact (@make_dataset_value). Qed.
Print Assumptions C88_constructor_shares.

(** ** Copies of models *)
Theorem C88_copy_value : forall (N : num) digest (st : state N) m n,
  valid st /\ stable digest st -> m < length (mos st) ->
  let r := heap_copy st m n in let j := length (mos st) in
  match copy (model_at st m) n with
  | Err e => snd r = Err e /\ mos (fst r) = mos st
  | Ok mm => snd r = Ok tt /\ length (mos (fst r)) = S j /\
      m_ens (model_at (fst r) j) = m_ens mm /\ m_lr (model_at (fst r) j) = m_lr mm /\
      m_base (model_at (fst r) j) = m_base mm /\
      map contents (m_cache (model_at (fst r) j)) = map contents (m_cache mm)
  end.
Proof. exact (@copy_value). Qed.
Print Assumptions C88_copy_value.

Theorem C88_copy_is_independent : forall (N : num) (rowsum : list N -> N) digest (st : state N) m n mm w,
  valid st /\ stable digest st -> m < length (mos st) -> copy (model_at st m) n = Ok mm ->
  let st' := fst (heap_copy st m n) in let j := length (mos st) in
  (forall x b, In (x, b) w -> x < length (mem st)) ->
  model_at (run rowsum digest st' (writes w)) j = model_at st' j.
Proof. exact (@copy_independent). Qed.
Print Assumptions C88_copy_is_independent.

Theorem C88_copy_is_private : forall (N : num) (rowsum : list N -> N) digest (st : state N) m n mm w,
  valid st /\ stable digest st -> m < length (mos st) -> copy (model_at st m) n = Ok mm ->
  let st' := fst (heap_copy st m n) in let j := length (mos st) in
  (forall x b, In (x, b) w -> model_reach st' j x) ->
  (forall i, i < j -> model_at (run rowsum digest st' (writes w)) i = model_at st' i) /\
  (forall i, i < length (dss st) -> dataset_at (run rowsum digest st' (writes w)) i = dataset_at st' i).
Proof. exact (@copy_private). Qed.
Print Assumptions C88_copy_is_private.

(** ** Scores *)

(** Without caching, the arrays returned are either those of an entry of the cache or new
    ones that nothing else refers to. *)
Theorem C88_scores_owned : forall (N : num) (rowsum : list N -> N) digest (st : state N) m d det st' a,
  valid st /\ stable digest st -> m < length (mos st) -> d < length (dss st) ->
  heap_score rowsum digest st m d det false = (st', Ok a) ->
  (exists k z s, In (k, z, s) (o_cache (mobj_at st m)) /\ a = harray_of det (nth s (scs st) empty_sobj)) \/
  (forall x, In x (arrays_of_answer a) -> length (mem st) <= x /\ ~ guarded st' x).
Proof. exact (@answers_owned). Qed.
Print Assumptions C88_scores_owned.

(** For careful clients the heap does not show: models are the values of M_Ensemble.v. *)
Theorem C88_models_are_values : forall (N : num) (rowsum : list N -> N) digest (st : state N) p m,
  valid st /\ stable digest st -> careful rowsum digest st p -> m < length (mos st) ->
  model_at (run rowsum digest st p) m
    = score_after rowsum digest (model_at st m) (calls rowsum digest st p m).
Proof.
  intros N rowsum digest st p m I C Hm.
  exact (proj1 (proj2 (proj2 (proj2 (run_ok rowsum digest p st I C)))) m Hm).
Qed.
Print Assumptions C88_models_are_values.

Theorem C88_answers_are_values : forall (N : num) (rowsum : list N -> N) digest (st : state N) m d det cache,
  valid st /\ stable digest st -> m < length (mos st) -> d < length (dss st) ->
  let r := heap_score rowsum digest st m d det cache in
  (model_at (fst r) m, answer_at r) = score rowsum digest (model_at st m) (d, dataset_at st d) det cache.
Proof.
  intros N rowsum digest st m d det cache I Hm Hd.
  exact (proj1 (proj2 (score_sim rowsum digest st m d det cache I Hm Hd))).
Qed.
Print Assumptions C88_answers_are_values.

(** A data set that was hashed never changes in the hands of a careful client. *)
Theorem C88_hashed_data_is_frozen : forall (N : num) (rowsum : list N -> N) digest (st : state N) p i,
  valid st /\ stable digest st -> careful rowsum digest st p -> i < length (dss st) ->
  d_hash (nth i (dss st) no_dobj) <> None ->
  dataset_at (run rowsum digest st p) i = dataset_at st i.
Proof.
  intros N rowsum digest st p i I C Hi Hh.
  exact (proj2 (proj2 (proj2 (proj2 (run_ok rowsum digest p st I C)))) i Hi Hh).
Qed.
Print Assumptions C88_hashed_data_is_frozen.

(** Caching is transparent to careful clients, whatever else they do in between. *)
Theorem C88_caching_is_transparent : forall (rowsum : list R -> R) digest (st : state RE) p m d det cache ts ws,
  (forall l, rowsum l = Rtotal l) ->
  valid st -> stable digest st -> m < length (mos st) -> o_cache (mobj_at st m) = [] ->
  careful (N:=RE) rowsum digest st p -> d < length (dss (run (N:=RE) rowsum digest st p)) ->
  laid_out (m_ens (model_at st m)) ts ws -> ts <> [] -> nonneg_features ts ->
  let st' := run (N:=RE) rowsum digest st p in
  let o := (d, dataset_at st' d) in
  (forall k, In k (o :: scored (calls (N:=RE) rowsum digest st p m)) -> rect (snd k)) ->
  shapes_told (N:=RE) digest (o :: scored (calls (N:=RE) rowsum digest st p m)) ->
  answer_at (heap_score (N:=RE) rowsum digest st' m d det cache)
    = snd (score (N:=RE) rowsum digest (model_at st m) o det false).
Proof. exact careful_exact. Qed.
Print Assumptions C88_caching_is_transparent.

Theorem C88_caching_any_arithmetic : forall (N : num) (rowsum : list N -> N) digest st p m d det cache ts ws,
  (forall a b : N, neqb a b = true <-> a = b) ->
  valid st -> stable digest st -> m < length (mos st) -> o_cache (mobj_at st m) = [] ->
  careful rowsum digest st p -> d < length (dss (run rowsum digest st p)) ->
  laid_out (m_ens (model_at st m)) ts ws -> ts <> [] -> nonneg_features ts ->
  let st' := run rowsum digest st p in
  let o := (d, dataset_at st' d) in
  (forall k, In k (o :: scored (calls rowsum digest st p m)) -> rect (snd k)) ->
  shapes_told digest (o :: scored (calls rowsum digest st p m)) ->
  answer_at (heap_score rowsum digest st' m d det cache)
    = snd (score rowsum digest (model_at st m) o det false)
  \/ (det = false /\ exists y pp l,
        snd (score rowsum digest (model_at st m) o true false) = Ok (Detailed (Some y) (Some pp) (Some l)) /\
        answer_at (heap_score rowsum digest st' m d det cache) = Ok (Basic (Some y))).
Proof. exact (@careful_any). Qed.
Print Assumptions C88_caching_any_arithmetic.

(** ** A client *)
Definition hx_digest (_ : list (list QN)) (y : list QN) (_ : list Z) : Z :=
  match y with v :: _ => Qnum v | [] => 0%Z end.
Definition hx_step := step (N:=QN) exact_sum hx_digest.
Definition hx_run := run (N:=QN) exact_sum hx_digest.
Definition hx_score := heap_score (N:=QN) exact_sum hx_digest.
Definition hx_rows : list (list QN) := [[10; 4; 0]; [11; 3; 7]; [11; 9; (15#2)]]%Q.
(** Arrays 0-2, data set 0 (whose labels are then rewritten), model 0. *)
Definition hx_setup : list (action QN) :=
  [NewArray (N:=QN) (Rows (N:=QN) hx_rows); NewArray (N:=QN) (Floats (N:=QN) [5; 1; 2]%Q); NewArray (Ints [4; 4; 9]%Z);
   NewDataset 3 0 1 2; WriteArray (N:=QN) 1 (Floats (N:=QN) [0; 1; 2]%Q);
   LoadModel (N:=QN) ex_good (1#10)%Q (Some (1#2)%Q)].
(** Scoring with the cache, a detailed request, a subset, a pruned copy, scoring with the copy. *)
Definition hx_work : list (action QN) :=
  [Score 0 0 false true; Score 0 0 true true; Subset 0 [4%Z]; Copy 0 (Some 1%Z); Score 1 1 false true;
   NewArray (N:=QN) (Floats (N:=QN) []); WriteArray (N:=QN) 33 (Floats (N:=QN) [1%Q])].

(** A check of [careful]. *)
Definition guards (st : state QN) : list addr :=
  flat_map (fun d => match d_hash d with None => [] | Some _ => arrays_of_dataset d end) (dss st)
  ++ flat_map arrays_of_model (mos st)
  ++ flat_map (fun m => flat_map (fun e => arrays_of_scorer (nth (snd e) (scs st) empty_sobj)) (o_cache m)) (mos st).
Lemma guards_all : forall st x, guarded st x -> In x (guards st).
Proof.
  intros st x [(d & H & H1 & H2)|[(m & H & H1)|(m & k & z & s & H & H1 & H2)]]; unfold guards;
    rewrite !in_app_iff.
  - left. apply in_flat_map. exists d. split; [exact H|].
    destruct (d_hash d); [exact H2|exfalso; apply H1; reflexivity].
  - right; left. apply in_flat_map. exists m. split; assumption.
  - right; right. apply in_flat_map. exists m. split; [exact H|]. apply in_flat_map.
    exists (k, z, s). split; assumption.
Qed.
Definition allowedb (st : state QN) (a : action QN) : bool :=
  match a with
  | NewArray _ | LoadModel _ _ _ => true
  | WriteArray x _ => (x <? length (mem st)) && negb (existsb (Nat.eqb x) (guards st))
  | NewDataset _ X y ids => (X <? length (mem st)) && (y <? length (mem st)) && (ids <? length (mem st))
  | Subset d _ | SubsetFeatures d _ | Split d _ _ _ | KFold d _ _ => d <? length (dss st)
  | Score m d _ _ => (m <? length (mos st)) && (d <? length (dss st))
  | Clear m | Copy m _ => m <? length (mos st)
  end.
Fixpoint carefulb (st : state QN) p : bool :=
  match p with [] => true | a :: p' => allowedb st a && carefulb (hx_step st a) p' end.
Lemma carefulb_ok : forall p st, carefulb st p = true -> careful (N:=QN) exact_sum hx_digest st p.
Proof.
  induction p as [|a p IH]; intros st H; [exact I|].
  cbn [carefulb] in H. apply andb_true_iff in H as [H1 H2]. split; [|exact (IH _ H2)]. clear IH H2.
  destruct a; cbn [allowedb] in H1; split; cbn [exists_for]; try exact I;
    rewrite ?andb_true_iff, ?Nat.ltb_lt in H1; try tauto.
  destruct H1 as [_ H1]. intros G%guards_all.
  apply negb_true_iff in H1.
  assert (E : existsb (Nat.eqb a) (guards st) = true)
    by (apply existsb_exists; exists a; split; [exact G|apply Nat.eqb_refl]).
  rewrite E in H1. discriminate.
Qed.

Example C88_example_careful : careful (N:=QN) exact_sum hx_digest start (hx_setup ++ hx_work).
Proof. apply carefulb_ok. vm_compute. reflexivity. Qed.

(** What the client gets: the second answer is the cached one, the scores are rows of M_Ensemble. *)
Definition hx_st := hx_run start hx_setup.
Example C88_example_scores :
  answer_at (hx_score hx_st 0 0 false true)
    = snd (score (N:=QN) exact_sum hx_digest (model_at hx_st 0) (0, dataset_at hx_st 0) false false)
  /\ (exists y, answer_at (hx_score hx_st 0 0 false true) = Ok (Basic (Some y)) /\ length y = 3 /\ nth 0 y 0%Q <> nth 1 y 0%Q)
  /\ length (calls (N:=QN) exact_sum hx_digest hx_st hx_work 0) = 2.
Proof. split; [vm_compute; reflexivity|]. split; [|vm_compute; reflexivity].
  eexists. split; [vm_compute; reflexivity|]. split; [reflexivity|vm_compute; discriminate]. Qed.

(** The hypotheses of the theorems on caching, for this client (over rationals). *)
Example C88_example_hypotheses :
  valid hx_st /\ stable hx_digest hx_st /\ 0 < length (mos hx_st) /\ o_cache (mobj_at hx_st 0) = [] /\
  careful (N:=QN) exact_sum hx_digest hx_st hx_work /\ 1 < length (dss (hx_run hx_st hx_work)) /\
  laid_out (m_ens (model_at hx_st 0)) ex_ts ex_ws /\
  let os := (1, dataset_at (hx_run hx_st hx_work) 1) :: scored (calls (N:=QN) exact_sum hx_digest hx_st hx_work 0) in
  length os = 3 /\ (forall k, In k os -> rect (snd k)) /\ shapes_told (N:=QN) (fun X _ _ => Z.of_nat (length X)) os.
Proof.
  pose proof (C88_careful_states QN exact_sum hx_digest hx_setup
    (carefulb_ok hx_setup start ltac:(vm_compute; reflexivity))) as [V S].
  split; [exact V|]. split; [exact S|]. split; [vm_compute; lia|]. split; [vm_compute; reflexivity|].
  split; [apply carefulb_ok; vm_compute; reflexivity|]. split; [vm_compute; lia|].
  split; [assert (E : m_ens (model_at hx_st 0) = ex_good) by (vm_compute; reflexivity); rewrite E; exact ex_laid_out|].
  cbv zeta. split; [vm_compute; reflexivity|]. split.
  - intros k Hk. vm_compute in Hk. repeat (destruct Hk as [<-|Hk]; [|]); try (destruct Hk);
      (split; [repeat (constructor; [reflexivity|]); constructor|reflexivity]).
  - intros k k' Hk Hk'. vm_compute in Hk, Hk'.
    repeat (destruct Hk as [<-|Hk]; [|]); try (destruct Hk);
      repeat (destruct Hk' as [<-|Hk']; [|]); try (destruct Hk'); vm_compute; intros H;
      try discriminate H; repeat split; reflexivity.
Qed.

(** A subset holds the rows of its queries, and is not touched by writes to the original. *)
Definition hx_sub := hx_run hx_st [Subset 0 [9%Z]].
Example C88_example_subset :
  new_datasets hx_st hx_sub = [mkDataset (V:=QN) [nth 2 hx_rows []] 3 [2%Q] [9%Z] [0; 1]]
  /\ dataset_at (hx_run hx_sub (writes [(0, Rows (N:=QN) []); (1, Floats (N:=QN) [])])) 1 = dataset_at hx_sub 1
  /\ dataset_at (hx_run hx_sub (writes [(0, Rows (N:=QN) []); (1, Floats (N:=QN) [])])) 0 <> dataset_at hx_sub 0.
Proof. repeat split; vm_compute; try reflexivity; discriminate. Qed.

(** ** What careless clients see *)

(** Writing into the array returned by a cached call changes later answers, also to requests
    made without caching: it is the array of the cache. *)
Theorem C88_returned_array_is_cached_refuted : exists (st : state QN) x b,
  careful (N:=QN) exact_sum hx_digest start (hx_setup ++ [Score 0 0 false true]) /\
  st = hx_run start (hx_setup ++ [Score 0 0 false true]) /\
  snd (hx_score st 0 0 false false) = Ok (HBasic (Some x)) /\ guarded st x /\
  answer_at (hx_score (hx_run st [WriteArray (N:=QN) x b]) 0 0 false false)
    <> snd (score (N:=QN) exact_sum hx_digest (model_at hx_st 0) (0, dataset_at st 0) false false).
Proof.
  eexists. eexists. exists (Floats (N:=QN) []).
  split; [apply carefulb_ok; vm_compute; reflexivity|]. split; [reflexivity|].
  split; [vm_compute; reflexivity|]. split; [|vm_compute; discriminate].
  right; right. eexists. eexists. eexists. eexists.
  split; [vm_compute; left; reflexivity|]. split; [vm_compute; left; reflexivity|].
  vm_compute. left. reflexivity.
Qed.
Print Assumptions C88_returned_array_is_cached_refuted.

(** Writing into the matrix of a data set that was scored leaves the old answer in the cache. *)
Theorem C88_stale_scores_refuted : exists (st : state QN) b,
  st = hx_run start (hx_setup ++ [Score 0 0 false true; WriteArray (N:=QN) 0 b]) /\
  rect (dataset_at st 0) /\
  exists y, answer_at (hx_score st 0 0 false true) = Ok (Basic (Some y)) /\
            snd (score (N:=QN) exact_sum hx_digest (model_at hx_st 0) (0, dataset_at st 0) false false)
              <> Ok (Basic (Some y)).
Proof.
  eexists. exists (Rows (N:=QN) (rev hx_rows)). split; [reflexivity|]. split.
  { split; [vm_compute; repeat (constructor; [reflexivity|]); constructor|vm_compute; reflexivity]. }
  eexists. split; [vm_compute; reflexivity|vm_compute; discriminate].
Qed.
Print Assumptions C88_stale_scores_refuted.

(** The hash of a data set is that of the contents it had when it was first hashed: two data
    sets with the same contents may then have different hashes. *)
Theorem C88_hash_is_current_refuted : exists (st : state QN),
  st = hx_run start (hx_setup ++ [Subset 0 [4%Z; 9%Z]; Score 0 0 false true; WriteArray (N:=QN) 1 (Floats (N:=QN) [7; 1; 2]%Q);
                                  Subset 0 [4%Z; 9%Z]]) /\
  dataset_at st 0 = dataset_at st 2 /\
  snd (hash_of hx_digest st 0) <> snd (hash_of hx_digest st 2).
Proof. eexists. split; [reflexivity|]. split; [vm_compute; reflexivity|vm_compute; discriminate]. Qed.
Print Assumptions C88_hash_is_current_refuted.

(** A subset of the features changes with the labels of the original. *)
Theorem C88_feature_subset_independent_refuted : exists (st : state QN) w,
  st = hx_run hx_st [SubsetFeatures 0 [2%Z; 0%Z]] /\
  (forall x b, In (x, b) w -> x < length (mem hx_st)) /\
  dataset_at (hx_run st (writes w)) 1 <> dataset_at st 1.
Proof.
  eexists. exists [(1, Floats (N:=QN) [7; 7; 7]%Q)]. split; [reflexivity|]. split.
  - intros x b [H|[]]. injection H as <- _. vm_compute. lia.
  - vm_compute. discriminate.
Qed.
Print Assumptions C88_feature_subset_independent_refuted.
