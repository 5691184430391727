(** Properties C31-C37 (tree ensembles and scoring). *)
From Coq Require Import List ZArith QArith Qabs Qround Reals Lia Lra Bool Permutation.
From Verif Require Import Base Lists Num M_Dataset S_Dataset M_NDCG M_Ensemble M_Parallel S_Ensemble
  L_Ensemble L_Ensemble2 L_Ensemble3 L_Parallel.
Import ListNotations.
Local Open Scope Z_scope.

Ltac vmr := repeat first [split; [vm_compute; reflexivity|] | vm_compute; reflexivity].

(** Two trees, the first laid out as in the repository's LightGBM test (the right child
    before the left one), and three rows. *)
Definition ex_good : ensemble QN :=
  mkEns (N:=QN) 2 8 [0; 5] [1%Q; (1#2)%Q]
    [2; 3; -1; -1; -1; 6; -1; -1] [1; 4; -1; -1; -1; 7; -1; -1]
    [10; 7; 5; 1; 2; 3; 4; 8]%Q [0; 2; -1; -1; -1; 1; -1; -1].
Definition ex_ts : list (tree Z QN) :=
  [Node 0 0 (10)%Q (Leaf 2 (5)%Q) (Node 1 2 (7)%Q (Leaf 3 (1)%Q) (Leaf 4 (2)%Q));
   Node 5 1 (3)%Q (Leaf 6 (4)%Q) (Leaf 7 (8)%Q)].
Definition ex_ws : list QN := [1%Q; (1#2)%Q].
Example ex_laid_out : laid_out ex_good ex_ts ex_ws.
Proof.
  repeat (split; [reflexivity|]). split.
  - repeat (split; [reflexivity|]). repeat constructor.
  - split; [|repeat split; reflexivity]. cbn [consecutive ex_ts mark]. split; [reflexivity|]. split.
    + apply NoDup_Permutation.
      * cbn. repeat (apply NoDup_cons; [cbn; lia|]). apply NoDup_nil.
      * cbn. repeat (apply NoDup_cons; [cbn; lia|]). apply NoDup_nil.
      * intros x. vm_compute. tauto.
    + split; [reflexivity|]. split; [|exact I]. apply Permutation_refl.
Qed.
Definition ex_rows : list (list QN) := [[10; 4; 0]; [11; 3; 7]; [11; 9; (15#2)]]%Q.
Example ex_covers : forall row, In row ex_rows -> covers row ex_ts.
Proof. intros row [<-|[<-|[<-|[]]]]; repeat constructor; cbn; lia. Qed.

(** C31 *)
Theorem C31_scoring_walks_the_trees : forall (N : num) (e : ensemble N) ts ws X,
  encodes e ts ws -> (forall row, In row X -> covers row ts) ->
  basic_scoring e X = Ok (map (ensemble_score ws ts) X).
Proof. exact (@C31_lemma). Qed.
Print Assumptions C31_scoring_walks_the_trees.

Theorem C31_exact : forall (e : ensemble RE) ts ws X,
  encodes e ts ws -> (forall row, In row X -> covers row ts) ->
  basic_scoring e X = Ok (map (real_score ws ts) X).
Proof. exact C31_real_lemma. Qed.
Print Assumptions C31_exact.

Example C31_example : basic_scoring ex_good ex_rows = Ok [9; 3; 6]%Q.
Proof. vmr. Qed.
(** Arrays that do not encode trees: a cycle makes the walk run forever, a child outside
    the arrays is read out of bounds. *)
Theorem C31_arrays_without_trees_refuted :
  exit_node (mkEns (N:=QN) 1 2 [0] [1%Q] [1; 0] [1; 0] [0; 0]%Q [0; 0]) [1%Q] 0 = Err Diverge /\
  exit_node (mkEns (N:=QN) 1 1 [0] [1%Q] [7] [7] [0]%Q [0]) [1%Q] 0 = Err MemFault.
Proof. vmr. Qed.

(** C32 *)
Theorem C32_detailed_scoring : forall (N : num) (e : ensemble N) ts ws X,
  encodes e ts ws -> (forall row, In row X -> covers row ts) ->
  detailed_scoring e X
  = Ok (map (fun row => map (fun t => fst (exit_leaf row t)) ts) X, map (tree_scores ws ts) X).
Proof. exact (@C32_lemma). Qed.
Print Assumptions C32_detailed_scoring.

Theorem C32_basic_and_detailed_agree : forall (rowsum : list R -> R), (forall l, rowsum l = Rtotal l) ->
  forall digest (m : model RE) (o : obj (N:=RE)) cache ts ws,
  laid_out (m_ens m) ts ws -> ts <> [] -> nonneg_features ts -> rows_fit (N:=RE) (snd o) ->
  ~ too_wide (ds_nf (snd o)) ts -> m_cache m = [] ->
  let scores := map (fun row => (m_lr m * real_score ws ts row + base_of (m_base m))%R) (ds_X (snd o)) in
  snd (score (N:=RE) rowsum digest m o false cache) = Ok (Basic (N:=RE) (Some scores)) /\
  exists parts,
    snd (score (N:=RE) rowsum digest m o true cache)
      = Ok (Detailed (N:=RE) (Some scores) (Some parts)
              (Some (map (fun row => map (fun t => fst (exit_leaf (N:=RE) row t)) ts) (ds_X (snd o))))) /\
    Forall2 (contribution (m_lr m) (m_base m) ws ts) (ds_X (snd o)) parts.
Proof. exact C32_real_lemma. Qed.
Print Assumptions C32_basic_and_detailed_agree.

Definition ex_model : model QN := mkModel ex_good (1#10)%Q (Some (1#2)%Q) [].
Definition ex_obj (k : nat) : obj (N:=QN) := (k, mkDataset ex_rows 3 [0; 1; 2]%Q [4] [0; 3]%nat).
Definition exact_sum (l : list QN) : QN := fold_left (fun a b => Qred (a + b)) l 0%Q.
Definition ex_digest (_ : list (list QN)) (_ : list QN) (_ : list Z) : Z := 0.
Example C32_example :
  snd (score exact_sum ex_digest ex_model (ex_obj 1) false true) = Ok (Basic (N:=QN) (Some [(7#5); (4#5); (11#10)]%Q)) /\
  snd (score exact_sum ex_digest ex_model (ex_obj 1) true true)
  = Ok (Detailed (N:=QN) (Some [(7#5); (4#5); (11#10)]%Q)
                 (Some [[1; (2#5)]; [(3#5); (1#5)]; [(7#10); (2#5)]]%Q)
                 (Some [[2; 7]; [3; 6]; [4; 7]])).
Proof. vmr. Qed.
(** The accessor of the leaves always fails. *)
Theorem C32_get_predicted_leaves_refuted : forall (N : num) (s : scorer N), get_predicted_leaves s = Err AttributeError.
Proof. reflexivity. Qed.
Print Assumptions C32_get_predicted_leaves_refuted.

(** C33 *)
Theorem C33_basic_scoring_any_schedule : forall (N : num) (e : ensemble N) X,
  (forall er, basic_loop e X = Err er <-> basic_scoring e X = Err er) /\
  (forall its n m' ts', basic_loop e X = Ok its ->
     steps Nat.eqb n (basic_start, start its) (m', ts') -> finished ts' ->
     basic_scoring e X = Ok (basic_result X m')).
Proof. exact (@C33_basic_lemma). Qed.
Print Assumptions C33_basic_scoring_any_schedule.

Theorem C33_detailed_scoring_any_schedule : forall (N : num) (e : ensemble N) X, 0 <= e_ntrees e ->
  ((exists its, detailed_loop e X = Ok its) <-> exists r, detailed_scoring e X = Ok r) /\
  (forall its n m' ts', detailed_loop e X = Ok its ->
     steps addr_eqb n (detailed_start, start its) (m', ts') -> finished ts' ->
     detailed_scoring e X = Ok (detailed_result e X m')).
Proof. exact (@C33_detailed_lemma). Qed.
Print Assumptions C33_detailed_scoring_any_schedule.

(** No execution runs for ever or gets stuck. *)
Theorem C33_every_schedule_ends : forall (A V : Type) (eqA : A -> A -> bool) (m : A -> V) its n m' ts',
  steps eqA n (m, start its) (m', ts') ->
  (n <= 2 * length (concat its))%nat /\ (finished ts' \/ exists c, step eqA (m', ts') c).
Proof. exact (@C33_progress_lemma). Qed.
Print Assumptions C33_every_schedule_ends.

(** An interleaved execution of the two-row loop. *)
Example C33_example : exists its m' ts',
  basic_loop ex_good (firstn 2 ex_rows) = Ok its /\
  steps Nat.eqb 8 (basic_start, start its) (m', ts') /\ finished ts' /\
  basic_result (firstn 2 ex_rows) m' = [9; 3]%Q.
Proof.
  eexists. eexists. eexists. split; [reflexivity|]. split.
  - eapply steps_next; [apply (step_load Nat.eqb _ [] [_])|].
    eapply steps_next; [apply (step_load Nat.eqb _ [_] [])|].
    eapply steps_next; [apply (step_store Nat.eqb _ [_] [])|].
    eapply steps_next; [apply (step_load Nat.eqb _ [_] [])|].
    eapply steps_next; [apply (step_store Nat.eqb _ [] [_])|].
    eapply steps_next; [apply (step_load Nat.eqb _ [] [_])|].
    eapply steps_next; [apply (step_store Nat.eqb _ [_] [])|].
    eapply steps_next; [apply (step_store Nat.eqb _ [] [_])|].
    apply steps_refl.
  - split; [repeat constructor|]. vm_compute. reflexivity.
Qed.

(** Two iterations that add to the same cell (as a loop over the trees of basic_scoring
    would): an update can be lost. *)
Definition ex_race : list (list (@op nat Z)) := [[mkOp 0%nat (Z.add 1)]; [mkOp 0%nat (Z.add 2)]].
Theorem C33_shared_cell_refuted : exists m1 t1 m2 t2,
  steps Nat.eqb 4 (fun _ => 0, start ex_race) (m1, t1) /\ finished t1 /\ m1 0%nat = 3 /\
  steps Nat.eqb 4 (fun _ => 0, start ex_race) (m2, t2) /\ finished t2 /\ m2 0%nat = 1.
Proof.
  do 4 eexists. split; [|split; [|split; [|split; [|split]]]].
  - eapply steps_next; [apply (step_load Nat.eqb _ [] [_])|].
    eapply steps_next; [apply (step_store Nat.eqb _ [] [_])|].
    eapply steps_next; [apply (step_load Nat.eqb _ [_] [])|].
    eapply steps_next; [apply (step_store Nat.eqb _ [_] [])|].
    apply steps_refl.
  - repeat constructor.
  - reflexivity.
  - eapply steps_next; [apply (step_load Nat.eqb _ [] [_])|].
    eapply steps_next; [apply (step_load Nat.eqb _ [_] [])|].
    eapply steps_next; [apply (step_store Nat.eqb _ [_] [])|].
    eapply steps_next; [apply (step_store Nat.eqb _ [] [_])|].
    apply steps_refl.
  - repeat constructor.
  - reflexivity.
Qed.
Print Assumptions C33_shared_cell_refuted.

(** C34 *)
Theorem C34_caching_is_transparent : forall (rowsum : list R -> R) digest (m0 : model RE) ts ws h (o : obj (N:=RE)) det cache,
  (forall l, rowsum l = Rtotal l) ->
  laid_out (m_ens m0) ts ws -> ts <> [] -> nonneg_features ts -> m_cache m0 = [] ->
  (forall k, In k (o :: scored h) -> rect (snd k)) -> distinguishable (N:=RE) digest (o :: scored h) ->
  snd (score (N:=RE) rowsum digest (score_after (N:=RE) rowsum digest m0 h) o det cache)
    = snd (score (N:=RE) rowsum digest m0 o det false).
Proof. exact C34_exact_lemma. Qed.
Print Assumptions C34_caching_is_transparent.

(** In any arithmetic and for any order of summation: the cached answer is the fresh one, or
    a plain request is answered with the (fresh) scores of a detailed one. *)
Theorem C34_any_arithmetic : forall (N : num) (rowsum : list N -> N) digest (m0 : model N) ts ws h (o : obj) det cache,
  (forall a b : N, neqb a b = true <-> a = b) ->
  laid_out (m_ens m0) ts ws -> ts <> [] -> nonneg_features ts -> m_cache m0 = [] ->
  (forall k, In k (o :: scored h) -> rect (snd k)) -> distinguishable digest (o :: scored h) ->
  snd (score rowsum digest (score_after rowsum digest m0 h) o det cache)
    = snd (score rowsum digest m0 o det false)
  \/ (det = false /\ exists y p l,
        snd (score rowsum digest m0 o true false) = Ok (Detailed (Some y) (Some p) (Some l)) /\
        snd (score rowsum digest (score_after rowsum digest m0 h) o det cache) = Ok (Basic (Some y))).
Proof. exact (@C34_any_lemma). Qed.
Print Assumptions C34_any_arithmetic.

(** Two equal data sets (different objects) share the entry; a cached plain entry does not
    answer a detailed request. *)
Example C34_example :
  let m1 := score_after exact_sum ex_digest ex_model [CallScore (ex_obj 1) false true; CallScore (ex_obj 2) false true] in
  length (m_cache m1) = 1%nat /\
  snd (score exact_sum ex_digest m1 (ex_obj 2) true true) = snd (score exact_sum ex_digest ex_model (ex_obj 2) true false).
Proof. vmr. Qed.

(** Rounding to 24 significant bits (float32 without overflow and underflow). *)
Definition round_even (q : Q) : Z :=
  let f := Qfloor q in
  match Qcompare (q - inject_Z f) (1#2) with
  | Lt => f | Gt => f + 1 | Eq => if Z.even f then f else f + 1
  end.
Definition f32 (q : Q) : Q :=
  if Qeq_bool q 0 then 0%Q else
  let e0 := Z.log2 (Z.abs (Qnum q)) - Z.log2 (Zpos (Qden q)) - 23 in
  let e := if Qfloor (Qabs q / Qpower 2 e0) <? 2 ^ 23 then e0 - 1 else e0 in
  Qred (inject_Z (round_even (q / Qpower 2 e)) * Qpower 2 e).
Definition QF : num :=
  mkNum Q 0%Q 1%Q (fun a b => Qred (a + b)) (fun a b => Qred (a - b))
        (fun a b => Qred (a * b)) (fun a b => Qred (a / b))
        Qle_bool (fun a b => negb (Qle_bool b a)) Qeq_bool inject_Z
        (fun x => x) (fun x => x) (fun x => x) (fun x n => Qred (Qpower x (Z.of_nat n))) (fun _ => false) f32.
Example f32_values : f32 (16777217#1) = 16777216%Q /\ f32 (16777219#1) = 16777220%Q /\ f32 (1#10) = (13421773#134217728)%Q /\ f32 (-1#3) = (-11184811#33554432)%Q.
Proof. vmr. Qed.
(** NumPy's sum of eight float32 numbers. *)
Definition sum8 (l : list Q) : Q :=
  let a i j := f32 (nth i l 0%Q + nth j l 0%Q) in
  f32 (f32 (a 0%nat 1%nat + a 2%nat 3%nat) + f32 (a 4%nat 5%nat + a 6%nat 7%nat)).
Definition ex8 : model QF :=
  mkModel (mkEns (N:=QF) 8 8 (zrange 0 8) (repeat 1%Q 8) (repeat (-1) 8) (repeat (-1) 8)
             (16777216 :: repeat 1 7)%Q (repeat (-1) 8)) 1%Q None [].
Definition ex8_obj : obj (N:=QF) := (1%nat, mkDataset [[0%Q]] 1 [0%Q] [4] [0; 1]%nat).
(** In float32, eight trees: what score(d) returns depends on a previous score(d, detailed=True). *)
Definition plain (r : res (answer (N:=QF))) : list Q := match r with Ok (Basic (Some y)) => y | _ => [] end.
Theorem C34_rounding_refuted :
  plain (snd (score (N:=QF) sum8 ex_digest ex8 ex8_obj false true)) = [16777216%Q] /\
  plain (snd (score (N:=QF) sum8 ex_digest (score_after (N:=QF) sum8 ex_digest ex8 [CallScore ex8_obj true true]) ex8_obj false true))
    = [16777222%Q].
Proof. vmr. Qed.
Print Assumptions C34_rounding_refuted.

(** After a failure the cache keeps an empty scorer: here a model pruned to -1 trees. *)
Theorem C34_failure_is_cached_refuted : exists m1,
  copy ex_model (Some (-1)) = Ok m1 /\
  snd (score exact_sum ex_digest m1 (ex_obj 1) true true) = Err ValueError /\
  snd (score exact_sum ex_digest m1 (ex_obj 1) false true) = Ok (Basic (N:=QN) (Some [(1#2); (1#2); (1#2)]%Q)) /\
  snd (score exact_sum ex_digest (score_after exact_sum ex_digest m1 [CallScore (ex_obj 1) true true]) (ex_obj 1) false true)
    = Ok (Basic (N:=QN) None).
Proof.
  exists (mkModel (mkEns (N:=QN) (-1) 5 [0] [1%Q] [2; 3; -1; -1; -1] [1; 4; -1; -1; -1] [10; 7; 5; 1; 2]%Q [0; 2; -1; -1; -1])
            (1#10)%Q (Some (1#2)%Q) []).
  vm_compute. repeat split.
Qed.

(** C35 *)
Theorem C35_pruning : forall (N : num) (m : model N) ts ws n, laid_out (m_ens m) ts ws -> 0 <= n ->
  exists m', copy m (Some n) = Ok m' /\ limit_trees m (Some n) = Ok m' /\
    laid_out (m_ens m') (firstn (Z.to_nat n) ts) (firstn (Z.to_nat n) ws) /\
    m_lr m' = m_lr m /\ m_base m' = m_base m /\
    (n < Z.of_nat (length ts) -> m_cache m' = []) /\ (Z.of_nat (length ts) <= n -> m' = m).
Proof. exact (@C35_lemma). Qed.
Print Assumptions C35_pruning.

Theorem C35_scores_of_the_first_trees : forall (N : num) (m : model N) ts ws n X,
  laid_out (m_ens m) ts ws -> 0 <= n -> (forall row, In row X -> covers row ts) ->
  exists m', copy m (Some n) = Ok m' /\
    basic_scoring (m_ens m') X = Ok (map (ensemble_score (firstn (Z.to_nat n) ws) (firstn (Z.to_nat n) ts)) X) /\
    detailed_scoring (m_ens m') X
      = Ok (map (fun row => map (fun t => fst (exit_leaf row t)) (firstn (Z.to_nat n) ts)) X,
            map (fun row => firstn (Z.to_nat n) (tree_scores ws ts row)) X).
Proof. exact (@C35_scores_lemma). Qed.
Print Assumptions C35_scores_of_the_first_trees.

Example C35_example : exists m', copy ex_model (Some 1) = Ok m' /\
  m_ens m' = mkEns (N:=QN) 1 5 [0] [1%Q] [2; 3; -1; -1; -1] [1; 4; -1; -1; -1] [10; 7; 5; 1; 2]%Q [0; 2; -1; -1; -1] /\
  basic_scoring (m_ens m') ex_rows = Ok [5; 1; 2]%Q.
Proof. eexists. split; [reflexivity|]. vmr. Qed.
(** Pruning to no tree gives a model that cannot be scored; a model that is not pruned
    keeps its cache; a negative number of trees is not refused. *)
Theorem C35_no_tree_refuted : exists m',
  copy ex_model (Some 0) = Ok m' /\ laid_out (m_ens m') [] [] /\
  snd (score exact_sum ex_digest m' (ex_obj 1) false false) = Err ValueError.
Proof.
  exists (mkModel (mkEns (N:=QN) 0 0 [] [] [] [] [] []) (1#10)%Q (Some (1#2)%Q) []).
  split; [vm_compute; reflexivity|]. split; [|vm_compute; reflexivity]. repeat split; try reflexivity. constructor.
Qed.
Print Assumptions C35_no_tree_refuted.
Theorem C35_cache_kept_refuted :
  let m1 := score_after exact_sum ex_digest ex_model [CallScore (ex_obj 1) false true] in
  length (m_cache m1) = 1%nat /\ copy m1 (Some 2) = Ok m1 /\ copy m1 None = Ok m1.
Proof. vmr. Qed.
Theorem C35_negative_refuted : exists m', copy ex_model (Some (-1)) = Ok m' /\
  e_ntrees (m_ens m') = -1 /\ e_nnodes (m_ens m') = 5 /\ e_root (m_ens m') = [0].
Proof.
  exists (mkModel (mkEns (N:=QN) (-1) 5 [0] [1%Q] [2; 3; -1; -1; -1] [1; 4; -1; -1; -1] [10; 7; 5; 1; 2]%Q [0; 2; -1; -1; -1])
            (1#10)%Q (Some (1#2)%Q) []). vmr.
Qed.

(** C36 *)
Theorem C36_structure : forall (N : num) (e : ensemble N) ts ws, laid_out e ts ws ->
  num_leaves e = Ok (map (fun t => Z.of_nat (leaves t)) ts) /\
  num_nodes e = Ok (map (fun t => Z.of_nat (size t)) ts) /\
  height_trees e = Ok (map (fun t => Z.of_nat (height t)) ts) /\
  Forall (fun t => size t = (2 * leaves t - 1)%nat) ts /\
  (ts = [] -> max_leaves e = Err ValueError) /\
  (ts <> [] -> exists m, max_leaves e = Ok m /\ In m (map (fun t => Z.of_nat (leaves t)) ts) /\
                         Forall (fun t => Z.of_nat (leaves t) <= m) ts).
Proof. exact (@C36_lemma). Qed.
Print Assumptions C36_structure.
Example C36_example :
  num_leaves ex_good = Ok [3; 2] /\ num_nodes ex_good = Ok [5; 3] /\ height_trees ex_good = Ok [2; 1] /\ max_leaves ex_good = Ok 3.
Proof. vmr. Qed.

(** C37 *)
Theorem C37_feature_check : forall (N : num) rowsum digest (m : model N) o det cache ts ws,
  laid_out (m_ens m) ts ws -> ts <> [] -> nonneg_features ts -> rows_fit (snd o) -> m_cache m = [] ->
  let r := snd (score rowsum digest m o det cache) in
  (r = Err RuntimeError <-> too_wide (ds_nf (snd o)) ts) /\ (r <> Err RuntimeError -> exists a, r = Ok a).
Proof. exact (@C37_score_lemma). Qed.
Print Assumptions C37_feature_check.

(** The check alone, without assumptions on the features. *)
Theorem C37_check : forall (N : num) (e : ensemble N) ts ws d, laid_out e ts ws -> ts <> [] ->
  (check_features e d = Err RuntimeError /\ too_wide (ds_nf d) ts) \/
  (check_features e d = Ok tt /\ ~ too_wide (ds_nf d) ts).
Proof. exact (@C37_check_lemma). Qed.
Print Assumptions C37_check.

Example C37_example :
  snd (score exact_sum ex_digest ex_model (1%nat, mkDataset [[10; 4]]%Q 2 [0]%Q [4] [0; 1]%nat) false true) = Err RuntimeError /\
  snd (score exact_sum ex_digest ex_model (1%nat, mkDataset [[10; 4; 0]]%Q 3 [0]%Q [4] [0; 1]%nat) false true)
  = Ok (Basic (N:=QN) (Some [(7#5)]%Q)).
Proof. vmr. Qed.

(** A negative feature at a split passes the check and is read outside the row. *)
Definition ex_neg : ensemble QN :=
  mkEns (N:=QN) 1 3 [0] [1%Q] [1; -1; -1] [2; -1; -1] [1; 2; 3]%Q [-2; -1; -1].
Theorem C37_negative_feature_refuted :
  laid_out ex_neg [Node 0 (-2) 1%Q (Leaf 1 2%Q) (Leaf 2 3%Q)] [1%Q : QN] /\
  snd (score exact_sum ex_digest (mkModel ex_neg 1%Q None []) (ex_obj 1) false false) = Err MemFault.
Proof. split; [|vm_compute; reflexivity]. repeat split; try reflexivity. repeat constructor. Qed.
Print Assumptions C37_negative_feature_refuted.
