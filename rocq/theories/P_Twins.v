(** Property C91: only the trees of a model matter. *)
From Coq Require Import Ascii String List ZArith QArith Lia Bool Permutation.
From Verif Require Import Base Lists Num M_Dataset S_Dataset M_NDCG M_Ensemble S_Ensemble M_Effectiveness M_Statistical M_Topology S_Topology M_Feature M_FeatureMetric
  M_Text M_Svmlight S_Svmlight M_Float M_Loaders M_TextLoaders S_Loaders T_Loaders L_QuickRank M_Xml S_Xml S_Twins L_Twins L_Twins2 L_Twins3 L_Twins4 P_Topology.
Import ListNotations.
Local Open Scope Z_scope.

Section Statements.
Variable N : num.
Variable rowsum : list N -> N.
Variable digest : list (list N) -> list N -> list Z -> Z.
Notation stores := (Forall2 (@twins N)).
Notation fits := (Forall (fun o : obj (N:=N) => rows_fit (snd o))).

(** Scoring: the same scores, cached or not, and the two models are still twins; also after any calls. *)
Theorem C91_score : forall (m m' : model N) o det cache, twins m m' -> rows_fit (snd o) ->
  twins (fst (score rowsum digest m o det cache)) (fst (score rowsum digest m' o det cache)) /\
  both same_answer (snd (score rowsum digest m o det cache)) (snd (score rowsum digest m' o det cache)).
Proof. exact (score_same rowsum digest). Qed.
Theorem C91_history : forall h (m m' : model N), twins m m' -> (forall o, In o (scored h) -> rows_fit (snd o)) ->
  twins (score_after rowsum digest m h) (score_after rowsum digest m' h).
Proof. exact (history_same rowsum digest). Qed.

(** The analyses: the same tables or the same exception. *)
Theorem C91_model_performance : forall st st' ds ms (metrics : list (evaluator (N:=N))) cache, stores st st' -> fits ds ->
  same_table (model_performance rowsum digest st ds ms metrics cache) (model_performance rowsum digest st' ds ms metrics cache).
Proof. exact (model_performance_same rowsum digest). Qed.
Theorem C91_tree_wise_performance : forall st st' ds ms (metrics : list (evaluator (N:=N))) k cache, stores st st' -> fits ds ->
  same_table (tree_wise_performance rowsum digest st ds ms metrics k cache) (tree_wise_performance rowsum digest st' ds ms metrics k cache).
Proof. exact (tree_wise_performance_same rowsum digest). Qed.
Theorem C91_tree_wise_average_contribution : forall st st' ds ms cache, stores st st' -> fits ds ->
  same_table (tree_wise_average_contribution rowsum digest st ds ms cache) (tree_wise_average_contribution rowsum digest st' ds ms cache).
Proof. exact (contribution_same rowsum digest). Qed.
Theorem C91_query_wise_performance : forall st st' ds ms (metrics : list (evaluator (N:=N))) bins start stop cache, stores st st' -> fits ds ->
  same_table (query_wise_performance rowsum digest st ds ms metrics bins start stop cache)
             (query_wise_performance rowsum digest st' ds ms metrics bins start stop cache).
Proof. exact (query_wise_same rowsum digest). Qed.
Theorem C91_query_class_performance : forall st st' ds ms (metrics : list (evaluator (N:=N))) classes cache, stores st st' -> fits ds ->
  same_table (query_class_performance rowsum digest st ds ms metrics classes cache)
             (query_class_performance rowsum digest st' ds ms metrics classes cache).
Proof. exact (query_class_same rowsum digest). Qed.
Theorem C91_document_graded_relevance : forall st st' ds ms bins start stop cache, stores st st' -> fits ds ->
  same_table (document_graded_relevance rowsum digest st ds ms bins start stop cache)
             (document_graded_relevance rowsum digest st' ds ms bins start stop cache).
Proof. exact (graded_same rowsum digest). Qed.
Theorem C91_rank_confusion_matrix : forall (to_int : N -> Z) st st' ds ms skip cache, stores st st' -> fits ds ->
  same_table (rank_confusion_matrix rowsum digest to_int st ds ms skip cache) (rank_confusion_matrix rowsum digest to_int st' ds ms skip cache).
Proof. exact (confusion_same rowsum digest). Qed.
Theorem C91_statistical_significance : forall (sum : list N -> N) choice st st' ds a b (metrics : list (evaluator (N:=N))) n_perm cache, stores st st' -> fits ds ->
  same_table (statistical_significance sum digest rowsum choice st ds a b metrics n_perm cache)
             (statistical_significance sum digest rowsum choice st' ds a b metrics n_perm cache).
Proof. exact (significance_same rowsum digest). Qed.
End Statements.
Print Assumptions C91_score.
Print Assumptions C91_history.
Print Assumptions C91_model_performance.
Print Assumptions C91_tree_wise_performance.
Print Assumptions C91_tree_wise_average_contribution.
Print Assumptions C91_query_wise_performance.
Print Assumptions C91_query_class_performance.
Print Assumptions C91_document_graded_relevance.
Print Assumptions C91_rank_confusion_matrix.
Print Assumptions C91_statistical_significance.

(** Feature importance: for MSE and RMSE always; for other metrics when every tree has a split. *)
Theorem C91_feature_importance : forall (N : num) (e e' : ensemble N), same_trees e e' -> forall (red : list N -> N) d rmse normalize,
  feature_importance red e d rmse normalize = feature_importance red e' d rmse normalize.
Proof. exact (@feature_importance_same). Qed.
Print Assumptions C91_feature_importance.
Theorem C91_metric_importance : forall (N : num) (sum : list N -> N) (e e' : ensemble N) shapes ws d (metric : evaluator (N:=N)) normalize,
  holds e shapes ws -> holds e' shapes ws -> Forall (fun t => Forall (fun f => 0 <= f) (splits t)) shapes -> Forall (fun t => splits t <> []) shapes ->
  metric_importance sum e d metric normalize = metric_importance sum e' d metric normalize.
Proof. exact (@metric_importance_same). Qed.
Print Assumptions C91_metric_importance.

(** Counts, shapes and pruned models. *)
Theorem C91_counts : forall (N : num) (e e' : ensemble N), same_trees e e' ->
  num_leaves e = num_leaves e' /\ num_nodes e = num_nodes e' /\ height_trees e = height_trees e' /\ max_leaves e = max_leaves e'.
Proof. exact (@counts_same). Qed.
Print Assumptions C91_counts.
Theorem C91_topology : forall (N : num) incl (e e' : ensemble N) ts ts' ws order order',
  laid_out e ts ws -> laid_out e' ts' ws -> map erase ts = map erase ts' -> Forall parents_first ts -> Forall parents_first ts' ->
  Forall (fun t => (height t <= 63)%nat) ts -> ts <> [] -> Permutation order (zrange 0 (e_ntrees e)) -> Permutation order' (zrange 0 (e_ntrees e')) ->
  exists m m' hs, topology incl e order = Ok (m, hs) /\ topology incl e' order' = Ok (m', hs) /\
    forall d c, S_Topology.entry m (Z.of_nat d) c = S_Topology.entry m' (Z.of_nat d) c.
Proof. exact (@topology_same). Qed.
Print Assumptions C91_topology.
Theorem C91_pruned : forall (N : num) (m m' : model N) n, twins m m' -> 0 <= n ->
  both twins (copy m (Some n)) (copy m' (Some n)) /\ both twins (limit_trees m (Some n)) (limit_trees m' (Some n)).
Proof. exact (@prune_same). Qed.
Print Assumptions C91_pruned.

(** What each loader reads is given by the trees of the file; so files with the same trees give twins. *)
Theorem C91_same_trees_twins : forall (N : num) (e e' : ensemble N) shapes ws lr b, holds e shapes ws -> holds e' shapes ws ->
  Forall (fun t => Forall (fun f => 0 <= f) (splits t)) shapes -> twins (mkModel e lr b []) (mkModel e' lr b []).
Proof. exact (@holds_twins). Qed.
Print Assumptions C91_same_trees_twins.
Definition read_trees {N : num} (rd : text -> option N) {A} (ts : list (tree A text)) : list (tree unit N) :=
  map (convert (cell_of rd) (cell_of rd)) (map erase ts).
Theorem C91_quickrank : forall (N : num) (rd : text -> option N) wts x, quick_doc wts x ->
  Forall (fun p => readable rd (fst p) /\ Forall (readable rd) (values (snd p)) /\ fits16 (snd p)) wts ->
  exists e, quick_load rd x = Ok e /\ holds e (read_trees rd (map snd wts)) (map (cell_of rd) (map fst wts)).
Proof. exact (@quickrank_holds). Qed.
Print Assumptions C91_quickrank.
Theorem C91_lightgbm : forall (N : num) (rd : text -> option N) ps ls f, lgbm_file rd (map fst ps) ls -> file_text f ls ->
  Forall (fun p => arr_tree (fst p) (snd p) /\ fits16 (snd p) /\ Forall (readable rd) (a_threshold (fst p)) /\ Forall (readable rd) (a_leaf (fst p))) ps ->
  exists e, lgbm_load rd f = Ok e /\ holds e (read_trees rd (map snd ps)) (map (fun _ => none) ps).
Proof. exact (@lightgbm_holds). Qed.
Print Assumptions C91_lightgbm.
Theorem C91_xgboost : forall (N : num) (rd : text -> option N) (lower : N -> N) ts ls f, xgb_lines 0 ts ls -> file_text f ls ->
  Forall (fun t => fits16 t /\ Forall (readable rd) (values t)) ts ->
  exists e, xgb_load rd lower f = Ok e /\ holds e (map (convert (fun x => lower (cell_of rd x)) (cell_of rd)) (map erase ts)) (map (fun _ => none) ts).
Proof. exact (@xgboost_holds). Qed.
Print Assumptions C91_xgboost.
Theorem C91_scikit : forall (N : num) (rd : text -> option N) ts base lr ls f b l, sk_lines ts base lr ls -> file_text f ls ->
  Forall (fun t => fits16 t /\ Forall (readable rd) (values t) /\ own_numbers t) ts -> rd base = Some b -> rd lr = Some l ->
  exists e, sk_load rd f = Ok (e, Some b, Some l) /\ holds e (read_trees rd ts) (map (fun _ => none) ts).
Proof. exact (@scikit_holds). Qed.
Print Assumptions C91_scikit.
Theorem C91_jforests : forall (N : num) (rd : text -> option N) (ps : list (text * arrays * tree Z text)) x, jf_doc (map fst ps) x ->
  Forall (fun p => readable rd (fst (fst p)) /\ arr_tree (snd (fst p)) (snd p) /\ fits16 (snd p) /\
            Forall (readable rd) (a_threshold (snd (fst p))) /\ Forall (readable rd) (a_leaf (snd (fst p)))) ps ->
  exists e, jf_load rd x = Ok e /\ holds e (read_trees rd (map snd ps)) (map (cell_of rd) (map fst (map fst ps))).
Proof. exact (@jforests_holds). Qed.
Print Assumptions C91_jforests.
Theorem C91_catboost : forall (N : num) n (ts : list (tree Z N)) nodes junk, cat_file ts nodes -> ts <> [] -> Forall cat_tree ts -> Forall fits16 ts ->
  Forall (fun t => size t = n) ts -> Z.of_nat n <= 65535 -> (length ts <= length junk)%nat ->
  exists e, cat_load junk nodes = Ok e /\ holds e (map (convert nf32 nf32) (map erase ts)) (map (fun _ => none) ts).
Proof. exact (@catboost_holds). Qed.
Print Assumptions C91_catboost.

(** A model saved and loaded again with its learning rate and base score. *)
Theorem C91_saved_model : forall (N : num) (rd : text -> option N) (repr : N -> text) (half : N) (m : model N) ts ws, (forall v, Forall data_char (repr v)) ->
  laid_out (m_ens m) ts ws -> ts <> [] -> nonneg_features ts ->
  (forall t v, In t ts -> In v (values t) -> word (repr v) /\ readable rd (repr v) /\ cell_of rd (repr v) = v) ->
  Forall (fun v => word (repr v) /\ readable rd (repr v) /\ cell_of rd (repr v) = v) ws -> Forall fits16 ts ->
  exists t e' m', quick_save_text repr m = Ok t /\ quick_load_text rd t = Parsed (Ok e') /\
    construct half QuickRank (m_lr m) (m_base m) None (Ok e') = Ok m' /\ twins (clear_cache m) m'.
Proof. exact (@saved_twins). Qed.
Print Assumptions C91_saved_model.

(** Two layouts of the two trees of P_Topology.v: the same scores, other leaf numbers. *)
Definition tex2 : ensemble QN :=
  mkEns (N:=QN) 2 8 [0; 5] [1%Q; (1#2)%Q]
    [1; -1; 3; -1; -1; 7; -1; -1] [2; -1; 4; -1; -1; 6; -1; -1]
    [10; 5; 7; 1; 2; 3; 8; 4]%Q [0; -1; 2; -1; -1; 1; -1; -1].
Definition tex2_ts : list (tree Z QN) :=
  [Node 0 0 (10)%Q (Leaf 1 (5)%Q) (Node 2 2 (7)%Q (Leaf 3 (1)%Q) (Leaf 4 (2)%Q));
   Node 5 1 (3)%Q (Leaf 7 (4)%Q) (Leaf 6 (8)%Q)].
Example C91_hypotheses : twins (mkModel (N:=QN) tex (1#3)%Q (Some 1%Q) []) (mkModel (N:=QN) tex2 (1#3)%Q (Some 1%Q) []).
Proof.
  apply (C91_same_trees_twins QN tex tex2 (map erase tex_ts) [1%Q; (1#2)%Q]).
  - exists tex_ts. split; [apply tex_laid_out|reflexivity].
  - exists tex2_ts. split; [|reflexivity]. repeat (split; [reflexivity|]). split.
    + repeat (split; [reflexivity|]). repeat constructor.
    + split; [|repeat split; reflexivity]. cbn [consecutive tex2_ts mark]. split; [reflexivity|]. split; [apply Permutation_refl|].
      split; [reflexivity|]. split; [|exact I]. cbn. apply perm_skip. apply perm_swap.
  - repeat constructor; cbn; lia.
Qed.
Definition texd : obj (N:=QN) := (0%nat, mkDataset (V:=QN) [[9; 9; 9]; [11; 2; 7]; [11; 3; 8]]%Q 3 [0; 1; 2]%Q [4] [0; 3]%nat).
Definition qsum (l : list Q) : Q := fold_left Qplus l 0%Q.
Definition as_pairs (a : answer (N:=QN)) : option (list Q) * option (list (list Q)) * option (list (list Z)) :=
  match a with Basic y => (option_map (map Qred) y, None, None) | Detailed y p l => (option_map (map Qred) y, option_map (map (map Qred)) p, l) end.
Definition answers (e : ensemble QN) : res (option (list Q) * option (list (list Q)) * option (list (list Z))) :=
  do a <- snd (score (N:=QN) qsum (fun _ _ _ => 0) (mkModel (N:=QN) e (1#3)%Q (Some 1%Q) []) texd true true); Ok (as_pairs a).
(** Only the numbers of the leaves tell the two models apart. *)
Example C91_example :
  answers tex = Ok (Some [4; 2; 7 # 3]%Q, Some [[8 # 3; 4 # 3]; [4 # 3; 2 # 3]; [5 # 3; 2 # 3]]%Q, Some [[2; 7]; [3; 6]; [4; 6]]) /\
  answers tex2 = Ok (Some [4; 2; 7 # 3]%Q, Some [[8 # 3; 4 # 3]; [4 # 3; 2 # 3]; [5 # 3; 2 # 3]]%Q, Some [[1; 6]; [3; 7]; [4; 7]]).
Proof. vm_compute. auto. Qed.
Theorem C91_leaf_numbers_refuted : exists (m m' : model QN) o, twins m m' /\ rows_fit (snd o) /\
  snd (score (N:=QN) qsum (fun _ _ _ => 0) m o true false) <> snd (score (N:=QN) qsum (fun _ _ _ => 0) m' o true false).
Proof.
  exists (mkModel (N:=QN) tex (1#3)%Q (Some 1%Q) []), (mkModel (N:=QN) tex2 (1#3)%Q (Some 1%Q) []), texd. split; [apply C91_hypotheses|].
  split; [repeat constructor|]. vm_compute. discriminate.
Qed.

(** A tree that is a single leaf: node -1, the last of the arrays, is taken for its child. *)
Definition lone : ensemble QN :=
  mkEns (N:=QN) 2 6 [0; 1] [1; 1]%Q [-1; 2; -1; 4; -1; -1] [-1; 3; -1; 5; -1; -1] [7; 1; 1; 2; 2; 3]%Q [-1; 0; -1; 0; -1; -1].
Definition lone_ts : list (tree Z QN) := [Leaf 0 7%Q; Node 1 0 1%Q (Leaf 2 1%Q) (Node 3 0 2%Q (Leaf 4 2%Q) (Leaf 5 3%Q))].
Definition lone2 : ensemble QN :=
  mkEns (N:=QN) 2 6 [0; 1] [1; 1]%Q [-1; 2; -1; -1; -1; 3] [-1; 5; -1; -1; -1; 4] [7; 1; 1; 2; 3; 2]%Q [-1; 0; -1; -1; -1; 0].
Definition lone2_ts : list (tree Z QN) := [Leaf 0 7%Q; Node 1 0 1%Q (Leaf 2 1%Q) (Node 5 0 2%Q (Leaf 3 2%Q) (Leaf 4 3%Q))].
Lemma lone_out : laid_out lone lone_ts [1; 1]%Q.
Proof.
  repeat (split; [reflexivity|]). split.
  - repeat (split; [reflexivity|]). repeat constructor.
  - split; [|repeat split; reflexivity]. cbn [consecutive lone_ts mark]. repeat (split; [reflexivity|apply conj; [apply Permutation_refl|]]). exact I.
Qed.
Lemma lone2_out : laid_out lone2 lone2_ts [1; 1]%Q.
Proof.
  repeat (split; [reflexivity|]). split.
  - repeat (split; [reflexivity|]). repeat constructor.
  - split; [|repeat split; reflexivity]. cbn [consecutive lone2_ts mark]. split; [reflexivity|]. split; [apply Permutation_refl|]. split; [reflexivity|]. split; [|exact I].
    cbn. apply perm_skip. apply perm_skip. apply (Permutation_app_comm [5] [3; 4]).
Qed.
Definition lone_data : dataset QN := mkDataset (V:=QN) [[1]; [2]; [3]]%Q 1 [0; 1; 2]%Q [4] [0; 3]%nat.
Definition first_score : evaluator (N:=QN) := fun d y => Ok (nth 0 y 0%Q, y).
Definition importances (e : ensemble QN) : res (list Q * list Z) :=
  do r <- metric_importance (N:=QN) qsum e lone_data first_score false; Ok (map Qred (fst r), snd r).
Theorem C91_lone_leaf_refuted : same_trees lone lone2 /\ importances lone <> importances lone2.
Proof.
  split; [|vm_compute; discriminate]. exists (map erase lone_ts), [1; 1]%Q. split; [exists lone_ts; split; [apply lone_out|reflexivity]|].
  split; [exists lone2_ts; split; [apply lone2_out|reflexivity]|]. repeat constructor; cbn; lia.
Qed.

(** The shape found for children stored before their parents. *)
Definition early : ensemble QN :=
  mkEns (N:=QN) 1 7 [0] [1%Q] [1; 2; 3; -1; -1; -1; -1] [6; 5; 4; -1; -1; -1; -1] [0; 0; 0; 0; 0; 0; 0]%Q [0; 0; 0; -1; -1; -1; -1].
Definition early_tree : tree Z QN := Node 0 0 0%Q (Node 1 0 0%Q (Node 2 0 0%Q (Leaf 3 0%Q) (Leaf 4 0%Q)) (Leaf 5 0%Q)) (Leaf 6 0%Q).
Theorem C91_children_first_refuted : same_trees early late /\ topology true early [0] <> topology true late [0].
Proof.
  split; [|vm_compute; discriminate]. exists [erase early_tree], [1%Q]. split; [|split].
  - exists [early_tree]. split; [|reflexivity]. repeat (split; [reflexivity|]). split.
    + repeat (split; [reflexivity|]). repeat constructor.
    + split; [|repeat split; reflexivity]. cbn [consecutive mark early_tree]. split; [reflexivity|]. split; [apply Permutation_refl|exact I].
  - exists [late_tree]. split; [|reflexivity]. repeat (split; [reflexivity|]). split.
    + repeat (split; [reflexivity|]). repeat constructor.
    + split; [|repeat split; reflexivity]. cbn [consecutive mark late_tree]. split; [reflexivity|]. split; [|exact I].
      apply NoDup_Permutation.
      * cbn. repeat (apply NoDup_cons; [cbn; lia|]). apply NoDup_nil.
      * cbn. repeat (apply NoDup_cons; [cbn; lia|]). apply NoDup_nil.
      * intros x. vm_compute. tauto.
  - repeat constructor; cbn; lia.
Qed.
