(** Property C93 (missing values, infinities and signed zeros). *)
From Coq Require Import Ascii String List ZArith QArith Lia Bool SpecFloat.
From Verif Require Import Base Lists Num M_Text M_Svmlight S_Svmlight M_Dataset S_Dataset M_NDCG M_Ensemble S_Ensemble M_Loaders M_TextLoaders S_Loaders.
From Verif Require Import M_IEEE S_IEEE S_Missing T_Loaders L_Missing.
Import ListNotations.
Local Open Scope Z_scope.

(** A missing value goes right at every node. *)
Theorem C93_missing_goes_right : forall (A : Type) (row : list IEEE32) (t : tree A IEEE32),
  exit_leaf row t = exit_default nleb (fun _ => false) row t.
Proof. exact (@missing_right). Qed.
Print Assumptions C93_missing_goes_right.

(** Missing values are scored as the value +inf, unless a node compares with +inf. *)
Theorem C93_missing_as_infinity : forall (e : ensemble IEEE32) X, ~ In (S754_infinity false) (e_value e) ->
  basic_scoring e X = basic_scoring e (map (map nan_to_inf) X) /\
  detailed_scoring e X = detailed_scoring e (map (map nan_to_inf) X).
Proof. exact nan_as_infinity. Qed.
Print Assumptions C93_missing_as_infinity.

(** Rows whose values are equal (==) get the same scores: the sign of a zero is not seen. *)
Theorem C93_equal_values_same_scores : forall (e : ensemble IEEE32) X X',
  Forall2 (Forall2 (fun x y : IEEE32 => neqb x y = true)) X X' ->
  basic_scoring e X = basic_scoring e X' /\ detailed_scoring e X = detailed_scoring e X'.
Proof. exact equal_rows. Qed.
Print Assumptions C93_equal_values_same_scores.

(** A dump of XGBoost: the loaded model scores every row, also with missing and infinite values,
    as the booster that sends missing values to the "no" child everywhere. *)
Theorem C93_xgboost_missing : forall (rd : text -> option IEEE32) (ts : list (tree Z text)) ls f (X : list (list IEEE32)),
  xgb_lines 0 ts ls -> file_text f ls -> Forall (fun t => fits16 t /\ Forall (readable rd) (values t)) ts ->
  Forall (fun t => Forall (fun x => moderate (cell_of (N:=IEEE32) rd x)) (thresholds t)) ts ->
  (forall row, In row X -> Forall (fun x => valid_binary 24 128 x = true) row /\
                           Forall (fun t => Forall (fun i => 0 <= i < Z.of_nat (length row)) (splits t)) ts) ->
  exists e, xgb_load (N:=IEEE32) rd lower_ieee f = Ok e /\
    basic_scoring e X = Ok (map (booster_score (fun _ => false) (map (convert (cell_of (N:=IEEE32) rd) (cell_of (N:=IEEE32) rd)) ts)) X).
Proof. exact xgb_missing. Qed.
Print Assumptions C93_xgboost_missing.
(** On rows without missing values the directions of the dump do not matter. *)
Theorem C93_xgboost_nothing_missing : forall (A : Type) (default_left : A -> bool) (ts : list (tree A IEEE32)) row,
  ~ In (S754_nan : IEEE32) row -> booster_score default_left ts row = booster_score (fun _ => false) ts row.
Proof. exact (@xgb_nothing_missing). Qed.
Print Assumptions C93_xgboost_nothing_missing.

(** ** Values of the scores *)
Theorem C93_nan_part : forall (ws : list IEEE32) ts row,
  In (S754_nan : IEEE32) (tree_scores ws ts row) -> ensemble_score ws ts row = S754_nan.
Proof. exact nan_part. Qed.
Print Assumptions C93_nan_part.
Theorem C93_finite_parts : forall (ws : list IEEE32) ts row,
  Forall (fun p : IEEE32 => p <> S754_nan /\ ~ infinite p) (tree_scores ws ts row) -> ensemble_score ws ts row <> S754_nan.
Proof. exact finite_parts. Qed.
Print Assumptions C93_finite_parts.
Theorem C93_nonnegative_parts : forall (ws : list IEEE32) ts row,
  Forall nonnegative (tree_scores ws ts row) -> nonnegative (ensemble_score ws ts row).
Proof. exact nonnegative_parts. Qed.
Print Assumptions C93_nonnegative_parts.

(** ** Caches *)
(** A data set with a missing value equals no other object, not even a copy of itself. *)
Theorem C93_missing_never_equal : forall d d' : dataset IEEE32, rect d -> rect d' -> S_Dataset.same_shape d d' ->
  has_nan (ds_X d) -> ds_eq (neqb (n:=IEEE32)) d d' = Ok false.
Proof. exact nan_never_equal. Qed.
Print Assumptions C93_missing_never_equal.
(** C34 for the values of float32, where == is not identity. *)
Theorem C93_scores_after_any_history : forall rowsum digest (m0 : model IEEE32) ts ws h (o : obj (N:=IEEE32)) det cache,
  laid_out (m_ens m0) ts ws -> ts <> [] -> nonneg_features ts -> m_cache m0 = [] ->
  (forall k, In k (o :: scored h) -> rect (snd k)) -> distinguishable digest (o :: scored h) ->
  snd (score rowsum digest (score_after rowsum digest m0 h) o det cache)
    = snd (score rowsum digest m0 o det false)
  \/ (det = false /\ exists y p l,
        snd (score rowsum digest m0 o true false) = Ok (Detailed (Some y) (Some p) (Some l)) /\
        snd (score rowsum digest (score_after rowsum digest m0 h) o det cache) = Ok (Basic (Some y))).
Proof. exact history_ieee. Qed.
Print Assumptions C93_scores_after_any_history.

(** ** Examples *)
(** float32 values: 0.5, 1, 2, 4, and the special ones. *)
Definition h2 := ieee 1056964608. Definition v1 := ieee 1065353216. Definition v2 := ieee 1073741824. Definition v4 := ieee 1082130432.
Definition inf : IEEE32 := S754_infinity false. Definition ninf : IEEE32 := S754_infinity true.
Definition nan : IEEE32 := S754_nan. Definition nzero32 : IEEE32 := S754_zero true.
(** float(): the quotient of the decimal digits. *)
Definition rdI (t : text) : option IEEE32 :=
  match rdQ t with Some q => Some (ndiv (n:=IEEE32) (nofZ (Qnum q)) (nofZ (Zpos (Qden q)))) | None => None end.
Definition xgb_file := concat (map (fun s => lit s ++ [newline])%list ["booster[0]:"; "0:[f0<0.5] yes=1,no=2,missing=1"; "1:leaf=1"; "2:leaf=2"; "booster[1]:"; "0:leaf=4"]%string).
Definition xgb_tree : tree Z IEEE32 := Node 0 0 h2 (Leaf 1 v1) (Leaf 2 v2).
Definition score_loaded (X : list (list IEEE32)) : res (list IEEE32) := do e <- xgb_load (N:=IEEE32) rdI lower_ieee xgb_file; basic_scoring e X.
Example C93_example :
  moderate h2 /\ is_nan (lower_ieee h2) = false /\
  score_loaded [[h2]; [lower_ieee h2]; [nzero32]; [ninf]; [inf]; [nan]] =
    Ok [ieee 1086324736; ieee 1084227584; ieee 1084227584; ieee 1084227584; ieee 1086324736; ieee 1086324736] /\
  map (booster_score (fun _ => false) [xgb_tree; Leaf 0 v4]) [[h2]; [lower_ieee h2]; [nzero32]; [ninf]; [inf]; [nan]] =
    [ieee 1086324736; ieee 1084227584; ieee 1084227584; ieee 1084227584; ieee 1086324736; ieee 1086324736].
Proof. vm_compute. repeat split. Qed.
Print Assumptions C93_example.

(** The direction "missing=1" of the dump is lost: XGBoost sends a missing value to leaf 1. *)
Theorem C93_xgboost_default_refuted :
  score_loaded [[nan]] = Ok [ieee 1086324736] /\
  booster_score (fun _ => true) [xgb_tree; Leaf 0 v4] [nan] = ieee 1084227584 /\ ieee 1086324736 <> ieee 1084227584.
Proof. vm_compute. repeat split. discriminate. Qed.
Print Assumptions C93_xgboost_default_refuted.

(** A node that compares with +inf sends +inf left and a missing value right. *)
Definition top_stump : ensemble IEEE32 := mkEns (N:=IEEE32) 1 3 [0] [v1] [1; -1; -1] [2; -1; -1] [inf; v1; v2] [0; -1; -1].
Theorem C93_infinite_threshold_refuted :
  basic_scoring top_stump [[nan]] = Ok [v2] /\ basic_scoring top_stump (map (map nan_to_inf) [[nan]]) = Ok [v1].
Proof. vm_compute. repeat split. Qed.
Print Assumptions C93_infinite_threshold_refuted.

(** Leaves +inf and -inf, neither of them NaN, add up to NaN; so do the float32 products of finite leaves and weights. *)
Theorem C93_infinite_parts_refuted :
  let big := ieee 2139095039 in
  ensemble_score (N:=IEEE32) [v1; v1] [Leaf 0 inf; Leaf 0 ninf] [] = S754_nan /\
  ensemble_score (N:=IEEE32) [v2; v2] [Leaf 0 big; Leaf 0 (ieee (- 2139095039))] [] = S754_nan /\
  ensemble_score (N:=IEEE32) [v1; v1; v1] [Leaf 0 big; Leaf 0 big; Leaf 0 (ieee (- 2139095039))] [] = inf.
Proof. vm_compute. repeat split. Qed.
Print Assumptions C93_infinite_parts_refuted.

(** Two objects holding the same data, with and without a missing value: the cache has two
    entries or one, and the scores are those of a new model. *)
Definition digest0 (X : list (list IEEE32)) (y : list IEEE32) (q : list Z) : Z := 0.
Definition sum0 (l : list IEEE32) : IEEE32 := fold_left (fun y s => nadd y s) l nzero.
Definition stump : ensemble IEEE32 := mkEns (N:=IEEE32) 1 3 [0] [v1] [1; -1; -1] [2; -1; -1] [h2; v1; v2] [0; -1; -1].
Definition model0 : model IEEE32 := mkModel stump v1 None [].
Definition data (x : IEEE32) : dataset IEEE32 := mkDataset [[x; v4]; [v1; v4]] 2 [v1; v2] [7] [0%nat; 2%nat].
Definition scores_of (r : res (answer (N:=IEEE32))) : list IEEE32 := match r with Ok (Detailed (Some y) _ _) => y | _ => [] end.
Example C93_caches :
  length (m_cache (score_after sum0 digest0 model0 [CallScore (1%nat, data nan) true true; CallScore (2%nat, data nan) true true])) = 2%nat /\
  length (m_cache (score_after sum0 digest0 model0 [CallScore (1%nat, data nzero) true true; CallScore (2%nat, data nzero32) true true])) = 1%nat /\
  scores_of (snd (score sum0 digest0 (score_after sum0 digest0 model0 [CallScore (1%nat, data nan) true true]) (2%nat, data nan) true true))
  = [v2; v2] /\ scores_of (snd (score sum0 digest0 model0 (2%nat, data nan) true false)) = [v2; v2] /\
  ds_eq (neqb (n:=IEEE32)) (data nan) (data nan) = Ok false /\ ds_eq (neqb (n:=IEEE32)) (data nzero) (data nzero32) = Ok true.
Proof. do 5 (split; [vm_compute; reflexivity|]). vm_compute. reflexivity. Qed.
Print Assumptions C93_caches.
