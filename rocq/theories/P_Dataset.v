(** Properties C01-C10 (data sets). *)
From Coq Require Import List ZArith QArith Lia Bool Permutation Sorted.
From Verif Require Import Base Lists M_Dataset S_Dataset L_Dataset L_Dataset2 L_Dataset3.
Import ListNotations.
Local Open Scope Z_scope.

Ltac vmr := repeat first [split; [vm_compute; reflexivity|] | vm_compute; reflexivity].

(** A concrete data set used by the examples: 5 rows, queries 7, 2, 9. *)
Definition ex_X : list (list Z) := [[1; 2]; [3; 4]; [5; 6]; [7; 8]; [9; 10]].
Definition ex_y : list Z := [0; 1; 2; 0; 1].
Definition ex_ids : list Z := [7; 7; 2; 9; 9].
Definition ex_d : dataset Z := mkDataset ex_X 2 ex_y [7; 2; 9] [0; 2; 3; 5]%nat.

Example ex_built : built 2 ex_X ex_y ex_ids ex_d.
Proof. apply built_intro; vm_compute; reflexivity. Qed.

(** C01 *)
Theorem C01_offsets_are_a_segmentation : forall (V : Type) nf (X : list (list V)) y ids d,
  ids <> [] -> ds_init nf X y ids = Ok d ->
  nth_error (ds_offs d) 0 = Some 0%nat /\
  StronglySorted lt (ds_offs d) /\
  last (ds_offs d) 0%nat = length ids /\
  length (ds_offs d) = S (n_queries d) /\
  NoDup (ds_qids d) /\ (forall q, In q (ds_qids d) <-> In q ids) /\
  length (get_query_sizes d) = n_queries d /\
  Forall (fun s => (0 < s)%nat) (get_query_sizes d) /\
  list_sum (get_query_sizes d) = length ids.
Proof. exact (@C01_lemma). Qed.
Print Assumptions C01_offsets_are_a_segmentation.

(** Non-grouped ids are accepted too. *)
Example C01_example : exists d, ds_init 1 [[0]; [0]; [0]] [0; 0; 0] [4; 1; 4] = Ok d /\ [4; 1; 4] <> [].
Proof. eexists. split; [vm_compute; reflexivity|discriminate]. Qed.

(** C02 *)
Theorem C02_ids_round_trip_iff_grouped : forall (V : Type) nf (X : list (list V)) y ids d,
  length y = length ids -> int32_ids ids -> ds_init nf X y ids = Ok d ->
  (get_qids_dataset d = ids <-> grouped ids).
Proof. exact (@C02_lemma). Qed.
Print Assumptions C02_ids_round_trip_iff_grouped.

(** Rows that are not adjacent change query: row 2 (id 4) is attributed to query 1. *)
Theorem C02_interleaved_ids_refuted :
  exists (ids : list Z) d, ds_init 1 [[0]; [0]; [0]] [0; 0; 0] ids = Ok d /\ int32_ids ids /\
    get_qids_dataset d <> ids /\ get_qids_dataset d = [4; 1; 1].
Proof.
  exists [4; 1; 4]. eexists. split; [vm_compute; reflexivity|]. split; [apply int32b_ok; reflexivity|].
  split; [vm_compute; discriminate|vm_compute; reflexivity].
Qed.

(** C03 *)
Theorem C03_subset_keeps_requested_rows : forall (V : Type) nf (X : list (list V)) y ids d qs,
  built nf X y ids d ->
  exists d', subset qs d = Ok d' /\
    rows d' = filter (fun r => memz qs (fst r)) (rows d) /\
    (forall q, In q (ds_qids d') <-> In q qs /\ In q (ds_qids d)) /\
    (forall q, In q qs -> query_rows q d' = query_rows q d) /\
    ds_nf d' = ds_nf d /\
    exists X' y' ids', built nf X' y' ids' d'.
Proof. exact (@C03_lemma). Qed.
Print Assumptions C03_subset_keeps_requested_rows.

Example C03_example : exists d', subset [9; 7; 55] ex_d = Ok d' /\
  rows d' = [(7, ([1; 2], 0)); (7, ([3; 4], 1)); (9, ([7; 8], 0)); (9, ([9; 10], 1))].
Proof. eexists. vmr. Qed.

(** C04 *)
Theorem C04_split_is_a_partition : forall (V : Type) nf (X : list (list V)) y ids d train vali perm tq vq,
  built nf X y ids d -> Permutation perm (ds_qids d) ->
  (0 <= train)%Q -> (0 <= vali)%Q -> (train + vali <= 1)%Q ->
  nearest_even (train * inject_Z (Z.of_nat (n_queries d))) tq ->
  nearest_even (vali * inject_Z (Z.of_nat (n_queries d))) vq ->
  tq + vq < Z.of_nat (n_queries d) ->
  exists r, split train vali perm d = Ok r /\
    let '(tr, vl, te) := r in
    (vl = None <-> Qeq vali 0) /\
    Permutation (concat (map rows (split_parts r))) (filter (fun r => 0 <=? fst r) (rows d)) /\
    (forall p, In p (split_parts r) -> whole_part d p) /\
    (Forall (fun q => 0 <= q) ids ->
       Z.of_nat (n_queries tr) = tq /\
       (forall v, vl = Some v -> Z.of_nat (n_queries v) = vq) /\
       Z.of_nat (n_queries te) = Z.of_nat (n_queries d) - tq - vq).
Proof. exact (@C04_lemma). Qed.
Print Assumptions C04_split_is_a_partition.

Example C04_example :
  Permutation [9; 7; 2] (ds_qids ex_d) /\
  exists tr te, split (1#2) 0 [9; 7; 2] ex_d = Ok (tr, None, te) /\ ds_qids tr = [7; 9] /\ ds_qids te = [2].
Proof.
  split; [apply NoDup_Permutation_bis; [repeat constructor; cbn; intuition discriminate|cbn; lia|intros q; cbn; tauto]|].
  do 2 eexists. vmr.
Qed.

(** When train and validation take all the queries, the test part is the whole
    data set (so it overlaps the training part). *)
Theorem C04_no_test_query_leaks_everything : forall (V : Type) nf (X : list (list V)) y ids d train vali perm tq vq,
  built nf X y ids d -> Permutation perm (ds_qids d) -> Forall (fun q => 0 <= q) ids ->
  (0 <= train)%Q -> (0 <= vali)%Q -> (train + vali <= 1)%Q ->
  nearest_even (train * inject_Z (Z.of_nat (n_queries d))) tq ->
  nearest_even (vali * inject_Z (Z.of_nat (n_queries d))) vq ->
  tq + vq = Z.of_nat (n_queries d) ->
  exists tr vl te, split train vali perm d = Ok (tr, vl, te) /\ rows te = rows d.
Proof. exact (@C04_leak_lemma). Qed.
Print Assumptions C04_no_test_query_leaks_everything.

Theorem C04_partition_for_all_sizes_refuted :
  exists tr te, split 1 0 (ds_qids ex_d) ex_d = Ok (tr, None, te) /\ rows tr = rows ex_d /\ rows te = rows ex_d.
Proof. do 2 eexists. vmr. Qed.

(** Rounding can also allocate more queries than there are: 3 queries, 1/2 and 1/2. *)
Theorem C04_rounding_overlap_refuted :
  exists tr vl te, split (1#2) (1#2) (ds_qids ex_d) ex_d = Ok (tr, Some vl, te) /\
    ds_qids tr = [7; 2] /\ ds_qids vl = [9] /\ ds_qids te = [2; 9].
Proof. do 3 eexists. vmr. Qed.

(** C05: rows with a negative (int32) id are in no partition: C04_split_is_a_partition shows
    that the partitions contain exactly the rows with id >= 0; here is a witness. *)
Theorem C05_negative_ids_vanish_refuted :
  exists d tr te, ds_init 1 [[1]; [2]; [3]] [0; 1; 2] [5; -3; 8] = Ok d /\
    split (1#2) 0 [5; -3; 8] d = Ok (tr, None, te) /\
    (forall r, In r (rows tr ++ rows te) -> fst r <> -3) /\ In (-3) (ds_qids d).
Proof.
  do 3 eexists. split; [vm_compute; reflexivity|]. split; [vm_compute; reflexivity|].
  split; [|right; left; reflexivity].
  vm_compute. intros r [<-|[<-|[]]]; discriminate.
Qed.

Theorem C05_split_keeps_nonnegative_rows_only : forall (V : Type) nf (X : list (list V)) y ids d train vali perm tq vq,
  built nf X y ids d -> Permutation perm (ds_qids d) ->
  (0 <= train)%Q -> (0 <= vali)%Q -> (train + vali <= 1)%Q ->
  nearest_even (train * inject_Z (Z.of_nat (n_queries d))) tq ->
  nearest_even (vali * inject_Z (Z.of_nat (n_queries d))) vq ->
  tq + vq < Z.of_nat (n_queries d) ->
  exists r, split train vali perm d = Ok r /\
    forall q z, In (q, z) (concat (map rows (split_parts r))) <-> In (q, z) (rows d) /\ 0 <= q.
Proof. exact (@C05_lemma). Qed.
Print Assumptions C05_split_keeps_nonnegative_rows_only.

(** C06 *)
Theorem C06_kfold_partitions_queries : forall k qids c tr va te,
  (3 <= k)%nat -> (k <= length qids)%nat ->
  (exists fs, kfold_qids k qids = Ok fs /\ nth_error fs c = Some (tr, va, te)) ->
  Permutation (tr ++ va ++ te) qids /\
  (length te = length qids / k + (if Nat.eqb c 0 then length qids mod k else 0))%nat /\
  (length va = length qids / k + (if Nat.eqb c 1 then length qids mod k else 0))%nat.
Proof. exact C06_lemma. Qed.
Print Assumptions C06_kfold_partitions_queries.

Theorem C06_kfold_partitions_rows : forall (V : Type) nf (X : list (list V)) y ids d k perm,
  built nf X y ids d -> Permutation perm (ds_qids d) ->
  (3 <= k)%nat -> (k <= n_queries d)%nat ->
  exists fs, kfold k perm d = Ok fs /\ length fs = k /\
    forall tr va te, In (tr, va, te) fs ->
      Permutation (rows tr ++ rows va ++ rows te) (rows d) /\
      whole_part d tr /\ whole_part d va /\ whole_part d te.
Proof. exact (@C06_dataset_lemma). Qed.
Print Assumptions C06_kfold_partitions_rows.

Example C06_example : exists fs, kfold_qids 3 [10; 20; 30; 40; 50] = Ok fs /\
  nth_error fs 0 = Some ([10], [20], [30; 40; 50]).
Proof. eexists. vmr. Qed.

Theorem C06_two_folds_train_on_nothing : forall qids fs c tr va te,
  kfold_qids 2 qids = Ok fs -> nth_error fs c = Some (tr, va, te) -> tr = [].
Proof. exact kfold_two_lemma. Qed.
Print Assumptions C06_two_folds_train_on_nothing.

Example C06_two_folds_example : exists fs, kfold_qids 2 [10; 20; 30; 40] = Ok fs /\
  nth_error fs 0 = Some ([], [10; 20], [30; 40]).
Proof. eexists. vmr. Qed.

Theorem C06_fewer_queries_than_folds_is_empty : forall k qids fs f,
  (length qids < k)%nat -> kfold_qids k qids = Ok fs -> In f fs -> f = ([], [], []).
Proof. exact kfold_few_lemma. Qed.
Print Assumptions C06_fewer_queries_than_folds_is_empty.

Example C06_fewer_example : exists fs, kfold_qids 4 [10; 20; 30] = Ok fs /\ length fs = 4%nat.
Proof. eexists. split; [vm_compute; reflexivity|reflexivity]. Qed.

(** C07 *)
Theorem C07_kfold_tests_each_query_once : forall k qids fs,
  (3 <= k)%nat -> (k <= length qids)%nat -> kfold_qids k qids = Ok fs ->
  Permutation (concat (map snd fs)) qids /\ Permutation (concat (map (fun f => snd (fst f)) fs)) qids.
Proof. exact C07_lemma. Qed.
Print Assumptions C07_kfold_tests_each_query_once.

Example C07_example : exists fs, kfold_qids 3 [10; 20; 30; 40; 50] = Ok fs /\
  map snd fs = [[30; 40; 50]; [10]; [20]] /\ map (fun f => snd (fst f)) fs = [[20]; [30; 40; 50]; [10]].
Proof. eexists. vmr. Qed.

(** C08 *)
Theorem C08_query_offsets_delimit_the_query : forall (V : Type) nf (X : list (list V)) y ids d q,
  built nf X y ids d ->
  (In q ids -> exists s e, get_query_offsets q d = Ok (s, e) /\
     forall j, nth_error ids j = Some q <-> (s <= j < e)%nat) /\
  (~ In q ids -> get_query_offsets q d = Err AttributeError).
Proof. exact (@C08_lemma). Qed.
Print Assumptions C08_query_offsets_delimit_the_query.

Example C08_example : get_query_offsets 9 ex_d = Ok (3, 5)%nat /\ get_query_offsets 8 ex_d = Err AttributeError.
Proof. split; vm_compute; reflexivity. Qed.

(** C09 *)
Theorem C09_equality_is_pointwise : forall (V : Type) (veqb : V -> V -> bool),
  (forall a b, veqb a b = true <-> a = b) ->
  forall d d' : dataset V,
  rect d -> rect d' -> same_shape d d' ->
  exists b, ds_eq veqb d d' = Ok b /\
    (b = true <-> ds_X d = ds_X d' /\ ds_y d = ds_y d' /\ ds_qids d = ds_qids d').
Proof. exact (@C09_lemma). Qed.
Print Assumptions C09_equality_is_pointwise.

Theorem C09_equal_implies_same_hash : forall (V H : Type) (veqb : V -> V -> bool)
    (digest : list (list V) -> list V -> list Z -> H),
  (forall a b, veqb a b = true <-> a = b) ->
  forall d d' : dataset V,
  rect d -> rect d' -> same_shape d d' ->
  ds_eq veqb d d' = Ok true -> ds_hash digest d = ds_hash digest d'.
Proof. exact (@C09_hash_lemma). Qed.
Print Assumptions C09_equal_implies_same_hash.

(** Same X, y and distinct ids, different grouping: equal and same hash. *)
Definition ex_g1 : dataset Z := mkDataset [[0]; [1]; [2]] 1 [1; 0; 1] [4; 6] [0; 1; 3]%nat.
Definition ex_g2 : dataset Z := mkDataset [[0]; [1]; [2]] 1 [1; 0; 1] [4; 6] [0; 2; 3]%nat.
Theorem C09_equal_datasets_with_different_queries_refuted :
  ds_init 1 [[0]; [1]; [2]] [1; 0; 1] [4; 6; 6] = Ok ex_g1 /\
  ds_init 1 [[0]; [1]; [2]] [1; 0; 1] [4; 4; 6] = Ok ex_g2 /\
  ds_eq Z.eqb ex_g1 ex_g2 = Ok true /\
  (forall (H : Type) (digest : list (list Z) -> list Z -> list Z -> H), ds_hash digest ex_g1 = ds_hash digest ex_g2) /\
  get_query_sizes ex_g1 <> get_query_sizes ex_g2.
Proof. repeat split; vm_compute; congruence. Qed.

(** Across shapes [==] broadcasts: it is neither total nor transitive. *)
Theorem C09_equality_across_shapes_refuted :
  exists d1 d2 d3 : dataset Z,
    ds_init 1 [[5]; [5]] [1; 1] [3; 3] = Ok d1 /\ ds_init 1 [[5]] [1] [3] = Ok d2 /\
    ds_init 1 [[5]; [5]; [5]] [1; 1; 1] [3; 3; 3] = Ok d3 /\
    ds_eq Z.eqb d1 d2 = Ok true /\ ds_eq Z.eqb d2 d3 = Ok true /\
    ds_eq Z.eqb d1 d3 = Err AttributeError.
Proof. do 3 eexists. vmr. Qed.

(** C10 *)
Theorem C10_subset_features_selects_columns : forall (V : Type) nf (X : list (list V)) y ids d fs,
  built nf X y ids d -> Forall (fun row => length row = nf) X ->
  Forall (fun f => 0 <= f < Z.of_nat nf) fs ->
  exists d', subset_features fs d = Ok d' /\
    ds_y d' = y /\ get_qids_dataset d' = ids /\ query_iterator d' = query_iterator d /\
    ds_nf d' = length fs /\ length (ds_X d') = length X /\
    forall i j row f, nth_error X i = Some row -> nth_error fs j = Some f ->
      exists row', nth_error (ds_X d') i = Some row' /\
                   nth_error row' j = nth_error row (Z.to_nat f) /\ length row' = length fs.
Proof. exact (@C10_lemma). Qed.
Print Assumptions C10_subset_features_selects_columns.

Example C10_example : exists d', subset_features [1; 1; 0] ex_d = Ok d' /\
  ds_X d' = [[2; 2; 1]; [4; 4; 3]; [6; 6; 5]; [8; 8; 7]; [10; 10; 9]].
Proof. eexists. vmr. Qed.
