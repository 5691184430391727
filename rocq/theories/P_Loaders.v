(** Properties C38-C45 (model files). *)
From Coq Require Import Ascii String List ZArith QArith Qabs Lia Bool Permutation.
From Verif Require Import Base Lists Num M_Text M_Svmlight S_Svmlight M_Dataset M_Ensemble S_Ensemble M_Loaders M_TextLoaders S_Loaders
  M_Float T_Loaders L_Loaders L_QuickRank L_Dump2 L_Export L_Lgbm L_Jforests L_CatBoost L_Float L_Float2 L_Fixed.
Import ListNotations.
Local Open Scope Z_scope.

(** The arrays of a loaded model: roots, features, left and right children, values, weights. *)
Definition seen (r : res (ensemble QN)) : res (list Z * list Z * list Z * list Z * list Q * list Q) :=
  do e <- r; Ok (e_root e, e_feature e, e_left e, e_right e, e_value e, e_weight e).
Definition E (tag : string) (t : string) : xml := Elem tag [] (Some (lit t)) [].

(** C38 *)
Theorem C38_quickrank_file_holds_its_trees : forall (N : num) (rd : text -> option N) wts x,
  quick_doc wts x ->
  Forall (fun p => readable rd (fst p) /\ Forall (readable rd) (values (snd p)) /\ fits16 (snd p)) wts ->
  exists e, quick_load rd x = Ok e /\
    laid_out e (preorder_all 0 (map (fun p => convert (cell_of rd) (cell_of rd) (snd p)) wts))
               (map (fun p => cell_of rd (fst p)) wts).
Proof. exact (@C38_lemma). Qed.
Print Assumptions C38_quickrank_file_holds_its_trees.

Definition pos (p : string) : list (string * text) := [("pos"%string, lit p)].
Definition split (attrs : list (string * text)) (kids : list xml) : xml := Elem "split" attrs None kids.
Definition ex_quick (heads : list xml) : xml :=
  Elem "ranker" [] None (heads ++
   [Elem "ensemble" [] None
     [Elem "tree" [("weight"%string, lit "0.5")] None
        [split [] [E "feature" " 3 "; E "threshold" "1.25";
           split (pos "left") [E "output" "-2"];
           split (pos "right") [E "feature" "1"; E "threshold" "7"; split (pos "left") [E "output" "4"]; split (pos "right") [E "output" "8"]]]];
      Elem "tree" [("weight"%string, lit "1")] None [split [] [E "output" "9"]]]]).
Definition ex_quick_trees : list (text * tree unit text) :=
  [(lit "0.5", Node tt 2 (lit "1.25") (Leaf tt (lit "-2")) (Node tt 0 (lit "7") (Leaf tt (lit "4")) (Leaf tt (lit "8"))));
   (lit "1", Leaf tt (lit "9"))].
Ltac words := split; [discriminate|repeat constructor; intros B; cbn in B; repeat (destruct B as [B|B]; [discriminate B|]); exact B].
Ltac ints := exists [], false; eexists; repeat split; [constructor|repeat constructor; cbn; tauto|discriminate].
Example C38_example_doc : quick_doc ex_quick_trees (ex_quick [Elem "info" [] None []]).
Proof.
  apply (quick_root _ "ranker" [] None [Elem "info" [] None []] [] None _ []); [cbn; intuition discriminate|discriminate|
    repeat constructor; cbn; intuition discriminate|constructor|].
  constructor; [|constructor; [|constructor]]; (constructor; [reflexivity| |reflexivity]).
  - eapply split_node with (tf := lit "3"); [exists (lit " "), (lit " "); repeat split; repeat constructor; cbn; auto|ints|apply padded_refl|words| | |reflexivity|reflexivity].
    + constructor; [apply padded_refl|words].
    + eapply split_node with (tf := lit "1"); [apply padded_refl|ints|apply padded_refl|words| | |reflexivity|reflexivity];
        (constructor; [apply padded_refl|words]).
  - constructor; [apply padded_refl|words].
Qed.
Example C38_example : seen (quick_load rdQ (ex_quick [Elem "info" [] None []]))
  = Ok ([0; 5], [2; -1; 0; -1; -1; -1], [1; -1; 3; -1; -1; -1], [2; -1; 4; -1; -1; -1], [5 # 4; -2; 7; 4; 8; 9]%Q, [1 # 2; 1]%Q).
Proof. vm_compute. reflexivity. Qed.

(** Without a header the end of the first node is the skipped event: one node too few. *)
Theorem C38_no_header_refuted : quick_load rdQ (ex_quick []) = Err IndexError.
Proof. vm_compute. reflexivity. Qed.
(** A feature number that does not fit int16 becomes another one. *)
Theorem C38_big_feature_refuted : exists x,
  x = Elem "ranker" [] None [Elem "info" [] None []; Elem "ensemble" [] None [Elem "tree" [("weight"%string, lit "1")] None
        [split [] [E "feature" "40000"; E "threshold" "1"; split (pos "left") [E "output" "2"]; split (pos "right") [E "output" "3"]]]]]
  /\ (do e <- quick_load rdQ x; Ok (e_feature e)) = Ok [-25537; -1; -1].
Proof. eexists. split; [reflexivity|]. vm_compute. reflexivity. Qed.

(** C39 *)
Theorem C39_quickrank_save_load : forall (N : num) (rd : text -> option N) (repr : N -> text) (m : model N) ts ws,
  encodes (m_ens m) ts ws -> ts <> [] ->
  (forall t v, In t ts -> In v (values t) -> word (repr v) /\ readable rd (repr v) /\ cell_of rd (repr v) = v) ->
  Forall (fun v => word (repr v) /\ readable rd (repr v) /\ cell_of rd (repr v) = v) ws -> Forall fits16 ts ->
  exists x e', quick_save repr m = Ok x /\ quick_load rd x = Ok e' /\ laid_out e' (preorder_all 0 ts) ws.
Proof. exact (@C39_lemma). Qed.
Print Assumptions C39_quickrank_save_load.

Theorem C39_same_raw_scores : forall (N : num) (rd : text -> option N) (repr : N -> text) (m : model N) ts ws X,
  encodes (m_ens m) ts ws -> ts <> [] ->
  (forall t v, In t ts -> In v (values t) -> word (repr v) /\ readable rd (repr v) /\ cell_of rd (repr v) = v) ->
  Forall (fun v => word (repr v) /\ readable rd (repr v) /\ cell_of rd (repr v) = v) ws -> Forall fits16 ts ->
  (forall row, In row X -> covers row ts) ->
  exists x e', quick_save repr m = Ok x /\ quick_load rd x = Ok e' /\ basic_scoring e' X = basic_scoring (m_ens m) X.
Proof. exact (@C39_scores_lemma). Qed.
Print Assumptions C39_same_raw_scores.

Theorem C39_empty_model_cannot_be_saved : forall (N : num) (repr : N -> text) (m : model N) ws,
  encodes (m_ens m) [] ws -> quick_save repr m = Err ValueError.
Proof. exact (@C39_empty_lemma). Qed.
Print Assumptions C39_empty_model_cannot_be_saved.

(** float32 models written with nine digits: nothing is assumed about printing. *)
Theorem C39_float32 : forall (m : model F32N) (ts : list (tree Z F32N)) (ws : list F32N),
  encodes (m_ens m) ts ws -> ts <> [] ->
  (forall t v, In t ts -> In v (values t) -> Z.abs v < f32_top) ->
  Forall (fun v => Z.abs v < f32_top) ws -> Forall fits16 ts ->
  exists x e', quick_save show32 m = Ok x /\ quick_load rd32 x = Ok e' /\ laid_out e' (preorder_all 0 ts) ws.
Proof. exact (@C39_float32_lemma). Qed.
Print Assumptions C39_float32.

Definition showQ (q : Q) : text := if Pos.eqb (Qden q) 1 then show_Z (Qnum q) else show_fixed q.
Definition ex_model (lr : Q) (base : option Q) : model QN :=
  mkModel (N:=QN) (mkEns (N:=QN) 1 3 [2] [1%Q] [-1; -1; 0] [-1; -1; 1] [4; 8; 1 # 2]%Q [-1; -1; 0]) lr base [].
Definition again (m : model QN) : res (model QN) :=
  construct (N:=QN) (1 # 2)%Q QuickRank 1%Q None None (do x <- quick_save (N:=QN) showQ m; quick_load rdQ x).
Definition all_scores (m : model QN) : res (list Q) :=
  match snd (score (N:=QN) (fun _ => 0%Q) (fun _ _ _ => 0) m (0%nat, mkDataset (V:=QN) [[0%Q]; [1%Q]] 1 [0; 0]%Q [1] [0; 2]%nat) false false) with
  | Ok (Basic (Some y)) => Ok y
  | Ok _ => Err ValueError
  | Err e => Err e
  end.
Example C39_example :
  (do m <- again (ex_model 1%Q None); Ok (seen (Ok (m_ens m)))) = Ok (Ok ([0], [0; -1; -1], [1; -1; -1], [2; -1; -1], [1 # 2; 4; 8]%Q, [1]%Q))
  /\ all_scores (ex_model 1%Q None) = Ok [4; 8]%Q /\ (do m <- again (ex_model 1%Q None); all_scores m) = Ok [4; 8]%Q.
Proof. vm_compute. auto. Qed.
(** The learning rate and the base score are not restored. *)
Theorem C39_scale_lost_refuted :
  all_scores (ex_model (1 # 2)%Q (Some 3%Q)) = Ok [5; 7]%Q /\
  (do m <- again (ex_model (1 # 2)%Q (Some 3%Q)); all_scores m) = Ok [4; 8]%Q.
Proof. vm_compute. auto. Qed.

(** C40 *)
Theorem C40_lightgbm_file_holds_its_trees : forall (N : num) (rd : text -> option N) ps ls f,
  lgbm_file rd (map fst ps) ls -> file_text f ls ->
  Forall (fun p => arr_tree (fst p) (snd p) /\ fits16 (snd p) /\
            Forall (readable rd) (a_threshold (fst p)) /\ Forall (readable rd) (a_leaf (fst p))) ps ->
  exists e, lgbm_load rd f = Ok e /\
    laid_out e (map (convert (cell_of rd) (cell_of rd)) (placed 0 ps)) (map (fun _ => none) ps).
Proof. exact (@C40_lemma). Qed.
Print Assumptions C40_lightgbm_file_holds_its_trees.

(** A file that is otherwise fine with an unsupported line anywhere. *)
Theorem C40_unsupported_is_rejected : forall (N : num) (rd : text -> option N) ps la l lb f,
  lgbm_file rd (map fst ps) (la ++ lb) -> file_text f (la ++ l :: lb) ->
  Forall (fun p => arr_tree (fst p) (snd p) /\ fits16 (snd p) /\
            Forall (readable rd) (a_threshold (fst p)) /\ Forall (readable rd) (a_leaf (fst p))) ps ->
  lgbm_bad rd l -> lgbm_load rd f = Err AssertionError.
Proof. exact (@C40_rejected_lemma). Qed.
Print Assumptions C40_unsupported_is_rejected.

(** Any file with such a line. *)
Theorem C40_unsupported_never_loads : forall (N : num) (rd : text -> option N) ls l f (e : ensemble N),
  file_text f ls -> In l ls -> lgbm_bad rd l -> lgbm_load rd f <> Ok e.
Proof. exact (@C40_never_lemma). Qed.
Print Assumptions C40_unsupported_never_loads.

Definition lines (l : list string) : text := concat (map (fun s => lit s ++ [newline]) l).
Definition ex_lgbm (more : list string) : text := lines (
  ["tree"; "Tree=0"; "num_leaves=3"; "split_feature=5 1"; "threshold=0.5 2"; "decision_type=2 2"; "left_child=-1 -2"; "right_child=1 -3";
   "leaf_value=1 2 3"; "shrinkage=0.1"; ""]%string ++ more ++
  ["Tree=1"; "num_leaves=1"; "split_feature="; "threshold="; "left_child="; "right_child="; "leaf_value=7"; "shrinkage=0.1"]%string).
Example C40_example : seen (lgbm_load rdQ (ex_lgbm []))
  = Ok ([0; 5], [5; 1; -1; -1; -1; -1], [2; 3; -1; -1; -1; -1], [1; 4; -1; -1; -1; -1], [1 # 2; 2; 1; 2; 3; 7]%Q, [1; 1]%Q).
Proof. vm_compute. reflexivity. Qed.
Example C40_rejected_example :
  lgbm_load rdQ (ex_lgbm ["decision_type=2 1"%string]) = Err AssertionError /\
  lgbm_load rdQ (ex_lgbm ["default_value=0 0.5"%string]) = Err AssertionError /\
  lgbm_load rdQ (ex_lgbm ["has_categorical=1"%string]) = Err AssertionError.
Proof. vm_compute. auto. Qed.
(** A one-leaf tree written without split_feature (as LightGBM does) inherits the number
    of splits of the tree before: its leaf lands outside the arrays or on another node. *)
Theorem C40_missing_split_feature_refuted :
  lgbm_load rdQ (lines ["Tree=0"; "num_leaves=2"; "split_feature=5"; "threshold=0.5"; "left_child=-1"; "right_child=-2";
    "leaf_value=1 2"; "shrinkage=0.1"; "Tree=1"; "num_leaves=1"; "leaf_value=7"; "shrinkage=0.1"]%string) = Err IndexError.
Proof. vm_compute. reflexivity. Qed.
(** Without a shrinkage line the weight stays 0. *)
Theorem C40_no_shrinkage_refuted :
  (do e <- lgbm_load rdQ (lines ["Tree=0"; "num_leaves=2"; "split_feature=5"; "threshold=0.5"; "left_child=-1"; "right_child=-2"; "leaf_value=1 2"]%string);
   Ok (e_weight e)) = Ok [0%Q].
Proof. vm_compute. reflexivity. Qed.

(** C41: [lower] is the change made to thresholds (C42). *)
Theorem C41_xgboost_dump_holds_its_trees : forall (N : num) (rd : text -> option N) (lower : N -> N) ts ls f,
  xgb_lines 0 ts ls -> file_text f ls -> Forall (fun t => fits16 t /\ Forall (readable rd) (values t)) ts ->
  exists e, xgb_load rd lower f = Ok e /\
    laid_out e (preorder_all 0 (map (convert (fun x => lower (cell_of rd x)) (cell_of rd)) ts)) (map (fun _ => none) ts).
Proof. exact (@C41_lemma). Qed.
Print Assumptions C41_xgboost_dump_holds_its_trees.

Example C41_example : seen (xgb_load rdQ (fun t => t) (lines
    ["booster[0]:"; "0:[f2<0.5] yes=1,no=2,missing=1"; "1:[f7<3] yes=3,no=4,missing=3"; "3:leaf=1"; "4:leaf=-2,cover=4"; "2:leaf=5";
     "booster[1]:"; "0:leaf=0.25"]%string))
  = Ok ([0; 5], [2; 7; -1; -1; -1; -1], [1; 2; -1; -1; -1; -1], [4; 3; -1; -1; -1; -1], [1 # 2; 3; 1; -2; 5; 1 # 4]%Q, [1; 1]%Q).
Proof. vm_compute. reflexivity. Qed.

(** C42: float32 values are signed ranks; [sval] is the value in units of 2^-149. *)
Theorem C42_strict_comparison_kept : forall t x : Z,
  - 2 ^ 24 * 2 ^ 149 < sval t <= 2 ^ 24 * 2 ^ 149 -> (sval x <= sval (lower32 t) <-> sval x < sval t).
Proof. exact (@C42_lemma). Qed.
Print Assumptions C42_strict_comparison_kept.

(** Whole trees: the loaded tree sends every row to the leaf that XGBoost's comparison picks. *)
Theorem C42_trees_route_alike : forall (A : Type) (row : list F32N) (t : tree A F32N),
  Forall (fun thr => - 2 ^ 24 * 2 ^ 149 < sval thr <= 2 ^ 24 * 2 ^ 149) (thresholds t) ->
  exit_leaf row (convert lower32 (fun v => v) t) = exit_strict row t.
Proof. exact (@C42_tree_lemma). Qed.
Print Assumptions C42_trees_route_alike.

(** Hence the scores of a loaded dump are the sums of the leaves that XGBoost reaches. *)
Theorem C42_loaded_model_scores_as_xgboost : forall (rd : text -> option F32N) ts ls f (X : list (list F32N)),
  xgb_lines 0 ts ls -> file_text f ls -> Forall (fun t => fits16 t /\ Forall (readable rd) (values t)) ts ->
  Forall (fun t => Forall (fun x => - 2 ^ 24 * 2 ^ 149 < sval (cell_of rd x) <= 2 ^ 24 * 2 ^ 149) (thresholds t)) ts ->
  (forall row, In row X -> Forall (fun t => Forall (fun i => 0 <= i < Z.of_nat (length row)) (splits t)) ts) ->
  exists e, xgb_load rd lower32 f = Ok e /\
    basic_scoring e X = Ok (map (fun row => fold_left (fun y t =>
      nadd (n:=F32N) y (nmul (snd (exit_strict row (convert (cell_of rd) (cell_of rd) t))) none)) ts nzero) X).
Proof. exact (@C42_scores_lemma). Qed.
Print Assumptions C42_loaded_model_scores_as_xgboost.

(** From 2^25 on nothing is lowered: an instance equal to the threshold goes left. *)
Theorem C42_large_thresholds_not_lowered : forall t : Z,
  sval t <= - 2 ^ 25 * 2 ^ 149 \/ 2 ^ 25 * 2 ^ 149 < sval t -> lower32 t = t.
Proof. exact (@C42_beyond_lemma). Qed.
Print Assumptions C42_large_thresholds_not_lowered.

(** 26.5 is lowered by one unit in the last place; 0 becomes the largest negative value. *)
Example C42_example : Qeq (q32 1104412672) (53 # 2) /\ lower32 1104412672 = 1104412671 /\ lower32 0 = -1.
Proof. vm_compute. auto. Qed.
Theorem C42_beyond_the_range_refuted :
  (Qeq (q32 1266679810) 16777220 /\ lower32 1266679810 = 1266679810) /\
  (Qeq (q32 (-1266679808)) (-16777216) /\ lower32 (-1266679808) = -1266679808) /\
  (Qeq (q32 1275068416) 33554432 /\ lower32 1275068416 = 1275068416).
Proof. vm_compute. auto 10. Qed.

(** C43: [fixed] prints %f and [str] prints the leaf values. *)
Theorem C43_scikit_export_load : forall (N : num) (V : Type) (rd : text -> option N) (fixed str : V -> text) base lr b l ss ts,
  Forall2 (fun s t => sk_holds (sk_left s) (sk_right s) (sk_feature s) (sk_threshold s) (sk_value s) t /\
                      own_numbers t /\ length (sk_feature s) = size t) ss ts ->
  Forall (fun t => (Forall (fun x => plain_number (fixed x)) (thresholds t) /\ Forall (fun x => plain_number (str x)) (outputs t)) /\
                   fits16 t /\ Forall (fun x => readable rd (fixed x)) (thresholds t) /\
                   Forall (fun x => readable rd (str x)) (outputs t)) ts ->
  plain_number (fixed base) -> plain_number (fixed lr) -> rd (fixed base) = Some b -> rd (fixed lr) = Some l ->
  exists f e, sk_export fixed str base lr ss = Ok f /\ sk_load rd f = Ok (e, Some b, Some l) /\
    laid_out e (shifted 0 (map (convert (fun x => cell_of rd (fixed x)) (fun v => cell_of rd (str v))) ts)) (map (fun _ => none) ts).
Proof. exact (@C43_lemma). Qed.
Print Assumptions C43_scikit_export_load.

(** Six decimals: thresholds, base score and learning rate move by at most 5e-7; leaf
    values that [str] prints exactly are kept. *)
Theorem C43_six_decimals : forall (str : Q -> text) (base lr : Q) ss (ts : list (tree Z Q)),
  Forall2 (fun s t => sk_holds (sk_left s) (sk_right s) (sk_feature s) (sk_threshold s) (sk_value s) t /\
                      own_numbers t /\ length (sk_feature s) = size t) ss ts ->
  Forall fits16 ts ->
  Forall (fun t => Forall (fun v => exists n, numeral (str v) n /\ (dec_value n == v)%Q) (outputs t)) ts ->
  exists f e, sk_export show_fixed str base lr ss = Ok f /\ sk_load rdQ f = Ok (e, Some (sixed base), Some (sixed lr)) /\
    laid_out (N:=QN) e (shifted 0 (map (convert sixed Qred) ts)) (map (fun _ => none) ts) /\
    (forall q, Qabs (sixed q - q) <= 1 # 2000000)%Q.
Proof. exact (@C43_six_lemma). Qed.
Print Assumptions C43_six_decimals.

(** Any well-formed dump, also with node numbers in another order. *)
Theorem C43_scikit_file_holds_its_trees : forall (N : num) (rd : text -> option N) ts base lr ls f b l,
  sk_lines ts base lr ls -> file_text f ls ->
  Forall (fun t => fits16 t /\ Forall (readable rd) (values t) /\ own_numbers t) ts ->
  rd base = Some b -> rd lr = Some l ->
  exists e, sk_load rd f = Ok (e, Some b, Some l) /\
    laid_out e (shifted 0 (map (convert (cell_of rd) (cell_of rd)) ts)) (map (fun _ => none) ts).
Proof. exact (@C43_load_lemma). Qed.
Print Assumptions C43_scikit_file_holds_its_trees.

Definition ex_sk : sktree (V:=Q) := mkSk [1; -1; 3; -1; -1] [2; -1; 4; -1; -1] [6; -2; 2; -2; -2]
  [(4 # 10000000); -2; 5 # 4; -2; -2]%Q [0; 1; 0; 2; 3]%Q.
Example C43_example :
  (do f <- sk_export show_fixed showQ (1 # 2)%Q (1 # 10)%Q [ex_sk]; do r <- sk_load rdQ f;
   Ok (seen (Ok (fst (fst r))), snd (fst r), snd r))
  = Ok (Ok ([0], [6; -1; 2; -1; -1], [1; -1; 3; -1; -1], [2; -1; 4; -1; -1], [0; 1; 5 # 4; 2; 3]%Q, [1]%Q), Some (1 # 2)%Q, Some (1 # 10)%Q).
Proof. vm_compute. reflexivity. Qed.
(** The threshold 4e-7 above became 0: a row holding 2e-7 now goes right. *)
Theorem C43_small_threshold_refuted :
  snd (exit_leaf (N:=QN) [(2 # 10000000)%Q] (Node tt 0 (4 # 10000000)%Q (Leaf tt 1%Q) (Leaf tt 2%Q))) = 1%Q /\
  snd (exit_leaf (N:=QN) [(2 # 10000000)%Q] (convert sixed Qred (Node tt 0 (4 # 10000000)%Q (Leaf tt 1%Q) (Leaf tt 2%Q)))) = 2%Q.
Proof. vm_compute. auto. Qed.
(** A leaf printed as a list ("[1. 2.]", several outputs) cannot be read. *)
Theorem C43_several_outputs_refuted :
  sk_load rdQ (lines ["base_score=0"; "learning_rate=1"; "booster[0] []:"; "0:leaf=[1. 2.]"]%string) = Err ValueError.
Proof. vm_compute. reflexivity. Qed.

(** C44 *)
Theorem C44_jforests_file_holds_its_trees : forall (N : num) (rd : text -> option N) (ps : list (text * arrays * tree Z text)) x,
  jf_doc (map fst ps) x ->
  Forall (fun p => readable rd (fst (fst p)) /\ arr_tree (snd (fst p)) (snd p) /\ fits16 (snd p) /\
            Forall (readable rd) (a_threshold (snd (fst p))) /\ Forall (readable rd) (a_leaf (snd (fst p)))) ps ->
  exists e, jf_load rd x = Ok e /\
    laid_out e (map (convert (cell_of rd) (cell_of rd)) (placed 0 (map (fun p => (snd (fst p), snd p)) ps)))
               (map (fun p => cell_of rd (fst (fst p))) ps).
Proof. exact (@C44_lemma). Qed.
Print Assumptions C44_jforests_file_holds_its_trees.

Definition ex_jf (kids : list xml) : xml := Elem "Ensemble" [] None [Elem "Tree" [("weight"%string, lit "2")] None kids].
Example C44_example : seen (jf_load rdQ (ex_jf [E "SplitFeatures" "5 1"; E "LeftChildren" "-1 -2"; E "RightChildren" "1 -3";
    E "Thresholds" "8 9"; E "OriginalThresholds" "0.5 2"; E "LeafOutputs" "1 2 3"]))
  = Ok ([0], [5; 1; -1; -1; -1], [2; 3; -1; -1; -1], [1; 4; -1; -1; -1], [1 # 2; 2; 1; 2; 3]%Q, [2]%Q).
Proof. vm_compute. reflexivity. Qed.
(** A tree without splits has empty elements, whose text is None. *)
Theorem C44_single_leaf_refuted : exists x,
  x = ex_jf [Elem "SplitFeatures" [] None []; E "LeafOutputs" "1"] /\ jf_load rdQ x = Err AttributeError.
Proof. eexists. split; [reflexivity|]. vm_compute. reflexivity. Qed.

(** C45: [junk] is the memory behind np.empty. *)
Theorem C45_catboost_model_holds_its_trees : forall (N : num) n (ts : list (tree Z N)) nodes junk,
  cat_file ts nodes -> ts <> [] -> Forall cat_tree ts -> Forall fits16 ts ->
  Forall (fun t => size t = n) ts -> Z.of_nat n <= 65535 -> (length ts <= length junk)%nat ->
  exists e, cat_load junk nodes = Ok e /\
    laid_out e (backwards (Z.of_nat n) 0 (map (convert nf32 nf32) ts)) (map (fun _ => none) ts).
Proof. exact (@C45_lemma). Qed.
Print Assumptions C45_catboost_model_holds_its_trees.

(** Trees smaller than the (rounded down) average keep the root -1 in any model loaded. *)
Theorem C45_small_trees_keep_no_root : forall (N : num) (ts : list (tree Z N)) nodes junk k t (e : ensemble N),
  cat_file ts nodes -> Forall cat_tree ts ->
  Forall (fun t => Z.of_nat (size t) <= 65535) ts -> (length ts <= length junk)%nat ->
  nth_error ts k = Some t -> Z.of_nat (size t) < Z.of_nat (total_size ts) / Z.of_nat (length ts) ->
  cat_load junk nodes = Ok e -> zget (e_root e) (Z.of_nat k) = Some (-1).
Proof. exact (@C45_unset_lemma). Qed.
Print Assumptions C45_small_trees_keep_no_root.

Definition cn := @cnode QN.
Definition cleaf (t i : Z) (v : Q) : cn := mkC (N:=QN) t i BLeaf 0 0 0 0%Q [v].
Definition csplit (t i : Z) (b : behavior) (yes no f : Z) (v : Q) : cn := mkC (N:=QN) t i b yes no f v [].
Example C45_example : seen (cat_load (N:=QN) [9; 9; 9]
    [cleaf 0 0 5%Q; cleaf 0 1 6%Q; csplit 0 2 BGreater 1 0 4 (1 # 2)%Q; cleaf 1 0 7%Q; cleaf 1 1 8%Q; csplit 1 2 BLessEqual 1 0 3 2%Q])
  = Ok ([0; 3], [4; -1; -1; 3; -1; -1], [2; -1; -1; 4; -1; -1], [1; -1; -1; 5; -1; -1], [1 # 2; 6; 5; 2; 8; 7]%Q, [1; 1]%Q).
Proof. vm_compute. reflexivity. Qed.
(** Trees of 1 and 3 nodes: the model loads, the first root is not set and the second one
    is a leaf. *)
Theorem C45_different_sizes_refuted : (do e <- cat_load (N:=QN) [9; 9; 9]
    [cleaf 0 0 5%Q; cleaf 1 0 7%Q; cleaf 1 1 8%Q; csplit 1 2 BLessEqual 1 0 3 2%Q]; Ok (e_root e, e_feature e)) = Ok ([-1; 2], [-1; 3; -1; -1]).
Proof. vm_compute. reflexivity. Qed.
