(** Property C97 (model dumps of which only the beginning was written). *)
From Coq Require Import Ascii String List ZArith QArith Lia Bool Permutation.
From Verif Require Import Base Lists Num M_Text M_Svmlight S_Svmlight M_Dataset M_Ensemble S_Ensemble M_Loaders M_TextLoaders S_Loaders
  T_Loaders L_Loaders L_Dump2 S_CutModel L_CutModel3 L_CutModel4 P_Loaders.
Import ListNotations.
Local Open Scope Z_scope.

(** The first [n] lines of an XGBoost dump load without error; the scores are those of the trees
    of which a split without right subtree has become a leaf. *)
Theorem C97_xgboost_beginning : forall (N : num) (rd : text -> option N) (lower : N -> N) ts ls f n (X : list (list N)),
  xgb_lines 0 ts ls -> file_text f ls -> Forall (fun t => fits16 t /\ Forall (readable rd) (values t)) ts -> ~ no_node n ts ->
  let kept := kept_trees n (map (convert (fun x => lower (cell_of rd x)) (cell_of rd)) ts) in
  let ws := map (fun _ => none) kept in
  (forall row, In row X -> covers row kept) ->
  exists e, xgb_load rd lower (concat (firstn n ls)) = Ok e /\
    basic_scoring e X = Ok (map (ensemble_score ws kept) X) /\
    exists leaves, detailed_scoring e X = Ok (leaves, map (tree_scores ws kept) X).
Proof. exact (@xgb_beginning). Qed.
Print Assumptions C97_xgboost_beginning.

(** If the last line is the line of a tree, scoring reads outside the arrays. *)
Theorem C97_xgboost_no_node : forall (N : num) (rd : text -> option N) (lower : N -> N) ts ls f n (X : list (list N)),
  xgb_lines 0 ts ls -> file_text f ls -> Forall (fun t => fits16 t /\ Forall (readable rd) (values t)) ts -> no_node n ts -> X <> [] ->
  exists e, xgb_load rd lower (concat (firstn n ls)) = Ok e /\ basic_scoring e X = Err MemFault.
Proof. exact (@xgb_no_node). Qed.
Print Assumptions C97_xgboost_no_node.

(** The same for scikit-learn dumps whose nodes are numbered in the order of the lines. *)
Theorem C97_scikit_beginning : forall (N : num) (rd : text -> option N) ts base lr ls f n b l (X : list (list N)),
  sk_lines ts base lr ls -> file_text f ls ->
  Forall (fun t => fits16 t /\ Forall (readable rd) (values t) /\ marks t = zrange 0 (Z.of_nat (size t))) ts ->
  rd base = Some b -> rd lr = Some l -> ~ no_node n ts ->
  let kept := kept_trees n (map (convert (cell_of rd) (cell_of rd)) ts) in
  let ws := map (fun _ => none) kept in
  (forall row, In row X -> covers row kept) ->
  exists e, sk_load rd (concat (firstn (2 + n) ls)) = Ok (e, Some b, Some l) /\
    basic_scoring e X = Ok (map (ensemble_score ws kept) X) /\
    exists leaves, detailed_scoring e X = Ok (leaves, map (tree_scores ws kept) X).
Proof. exact (@sk_beginning). Qed.
Print Assumptions C97_scikit_beginning.
Theorem C97_scikit_no_node : forall (N : num) (rd : text -> option N) ts base lr ls f n b l (X : list (list N)),
  sk_lines ts base lr ls -> file_text f ls ->
  Forall (fun t => fits16 t /\ Forall (readable rd) (values t) /\ marks t = zrange 0 (Z.of_nat (size t))) ts ->
  rd base = Some b -> rd lr = Some l -> no_node n ts -> X <> [] ->
  exists e, sk_load rd (concat (firstn (2 + n) ls)) = Ok (e, Some b, Some l) /\ basic_scoring e X = Err MemFault.
Proof. exact (@sk_no_node). Qed.
Print Assumptions C97_scikit_no_node.

(** An XGBoost dump that ends anywhere, after [c] newlines: the line that was cut counts as missing
    or as complete, or is a leaf with a beginning of its value; a value that is no number is an error. *)
Theorem C97_xgboost_any_beginning : forall (N : num) (rd : text -> option N) (lower : N -> N) ts ls f g h (X : list (list N)),
  xgb_lines 0 ts ls -> file_text f ls -> Forall (fun t => fits16 t /\ Forall (readable rd) (values t)) ts ->
  Forall (fun t => Forall (fun x => ~ In "]"%char x) (thresholds t)) ts -> f = g ++ h ->
  let c := count_occ ascii_dec g newline in
  exists n ts',
    (ts' = ts /\ (n = c \/ n = S c) \/
     n = S c /\ exists v a b : text, leaf_line c ts = Some v /\ v = a ++ b /\ a <> [] /\ ts' = put_line c a ts) /\
    (xgb_load rd lower g = Err ValueError /\ ~ Forall (fun t => Forall (readable rd) (values t)) ts' \/
     exists e, xgb_load rd lower g = Ok e /\
      let kept := kept_trees n (map (convert (fun x => lower (cell_of rd x)) (cell_of rd)) ts') in
      let ws := map (fun _ => none) kept in
      (no_node n ts' -> X <> [] -> basic_scoring e X = Err MemFault) /\
      (~ no_node n ts' -> (forall row, In row X -> covers row kept) ->
        basic_scoring e X = Ok (map (ensemble_score ws kept) X) /\ exists leaves, detailed_scoring e X = Ok (leaves, map (tree_scores ws kept) X))).
Proof. exact (@xgb_any). Qed.
Print Assumptions C97_xgboost_any_beginning.

(** Two trees; the row takes the right branch twice. *)
Definition two_trees : list string :=
  ["booster[0]:"; "0:[f0<26] yes=1,no=2,missing=1"; "1:leaf=1"; "2:[f1<3] yes=3,no=4,missing=3"; "3:leaf=-2"; "4:leaf=5";
   "booster[1]:"; "0:leaf=0.25"]%string.
Definition scored (n : nat) : res (list Q) :=
  do e <- xgb_load rdQ (fun t => t) (lines (firstn n two_trees)); basic_scoring (N:=QN) e [[30; 7]]%Q.
Example C97_example :
  scored 0 = Ok [0]%Q /\ scored 1 = Err MemFault /\ scored 2 = Ok [26]%Q /\ scored 3 = Ok [26]%Q /\ scored 4 = Ok [3]%Q /\ scored 5 = Ok [3]%Q /\
  scored 6 = Ok [5]%Q /\ scored 7 = Err MemFault /\ scored 8 = Ok [21 # 4]%Q.
Proof. vm_compute. repeat split. Qed.
Definition two : list (tree Z Q) := [Node 0 0 26%Q (Leaf 1 1%Q) (Node 2 1 3%Q (Leaf 3 (-2)%Q) (Leaf 4 5%Q)); Leaf 0 (1 # 4)%Q].
Example C97_kept :
  kept_trees 3 two = [Leaf 0 26%Q] /\ kept_trees 5 two = [Node 0 0 26%Q (Leaf 1 1%Q) (Leaf 2 3%Q)] /\
  kept_trees 6 two = firstn 1 two /\ kept_trees 8 two = two /\ no_node 1 two /\ no_node 7 two /\ ~ no_node 6 two.
Proof. vm_compute. intuition. Qed.
Definition cut_at (n : nat) (last : string) : res (list Q) :=
  do e <- xgb_load rdQ (fun t => t) (lines (firstn n two_trees) ++ lit last); basic_scoring (N:=QN) e [[30; 7]; [1; 1]; [30; 1]]%Q.
Example C97_any_example :
  cut_at 3 "2:[f1<3" = Ok [26; 26; 26]%Q /\ cut_at 3 "2:[f1<3]" = Ok [3; 1; 3]%Q /\ cut_at 4 "3:leaf=" = Ok [3; 1; 3]%Q /\ cut_at 4 "3:leaf=-" = Err ValueError /\
  cut_at 6 "booster[1" = Ok [5; 1; -2]%Q /\ cut_at 6 "booster[1]" = Err MemFault /\ cut_at 7 "0:leaf=0." = Ok [5; 1; -2]%Q /\ cut_at 7 "0:leaf=0.2" = Ok [26 # 5; 6 # 5; -9 # 5]%Q.
Proof. vm_compute. repeat split. Qed.
Example C97_put_line : leaf_line 7 two = Some (1 # 4)%Q /\ put_line 4 9%Q two = [Node 0 0 26%Q (Leaf 1 1%Q) (Node 2 1 3%Q (Leaf 3 9%Q) (Leaf 4 5%Q)); Leaf 0 (1 # 4)%Q] /\ leaf_line 3 two = None.
Proof. vm_compute. auto. Qed.
(** A dump without its last line is neither rejected nor scored as the dump. *)
Theorem C97_incomplete_dump_refuted : exists e, xgb_load rdQ (fun t => t) (lines (firstn 5 two_trees)) = Ok e /\ basic_scoring (N:=QN) e [[30; 7]]%Q = Ok [3]%Q /\
  map (ensemble_score (N:=QN) [1; 1]%Q two) [[30; 7]]%Q = [21 # 4]%Q.
Proof. exists (mkEns (N:=QN) 1 4 [0] [1]%Q [1; -1; 3; -1] [2; -1; -1; -1] [26; 1; 3; -2]%Q [0; -1; 1; -1]). vm_compute. auto. Qed.
