(** Property C97, LightGBM files of which only the first lines were written. *)
From Coq Require Import Ascii String List ZArith QArith Reals Lia Bool Permutation.
From Verif Require Import Base Lists Num M_Text M_Svmlight S_Svmlight M_Dataset M_Ensemble S_Ensemble M_Loaders M_TextLoaders S_Loaders
  T_Loaders L_Loaders L_Lgbm S_CutLgbm L_CutLgbm P_Loaders.
Import ListNotations.
Local Open Scope Z_scope.

(** The first lines of a file are a complete file of the first trees, or end after one to seven of the
    eight lines of a tree. *)
Theorem C97_lightgbm_beginnings : forall (N : num) (rd : text -> option N) ps ls f n,
  lgbm_file rd (map fst ps) ls -> file_text f ls ->
  file_text (concat (firstn n ls)) (firstn n ls) /\
  ((exists r q, ps = r ++ q /\ lgbm_file rd (map fst r) (firstn n ls)) \/
   exists r p t q j, ps = r ++ (p, t) :: q /\ (1 <= j <= 7)%nat /\ cut_file rd r p j (firstn n ls)).
Proof. exact (@lgbm_first). Qed.
Print Assumptions C97_lightgbm_beginnings.

(** After two or more lines of a tree the file loads, and the tree is scored with weight 0. *)
Theorem C97_lightgbm_cut : forall (N : num) (rd : text -> option N) ps p t j ls f (X : list (list N)),
  cut_file rd ps p j ls -> file_text f ls ->
  Forall (fun p => arr_tree (fst p) (snd p) /\ fits16 (snd p) /\
            Forall (readable rd) (a_threshold (fst p)) /\ Forall (readable rd) (a_leaf (fst p))) ps ->
  (arr_tree p t /\ fits16 t /\ Forall (readable rd) (a_threshold p) /\ Forall (readable rd) (a_leaf p)) -> (2 <= j <= 7)%nat ->
  let ts := map (convert (cell_of rd) (cell_of rd)) (placed 0 ps) in
  let ws := map (fun _ => none) ps in
  (forall row, In row X -> covers row (convert (cell_of rd) (cell_of rd) t :: ts)) ->
  exists e (v : list N -> N), lgbm_load rd f = Ok e /\
    basic_scoring e X = Ok (map (fun row => nf32 (nadd (ensemble_score ws ts row) (nf32 (nmul (v row) nzero)))) X) /\
    exists leaves, detailed_scoring e X = Ok (leaves, map (fun row => tree_scores ws ts row ++ [nf32 (nmul (v row) nzero)]) X).
Proof. exact (@lgbm_cut). Qed.
Print Assumptions C97_lightgbm_cut.

(** In exact arithmetic the scores are those of the complete trees. *)
Theorem C97_lightgbm_cut_exact : forall (rd : text -> option RE) ps p t j ls f (X : list (list RE)),
  cut_file rd ps p j ls -> file_text f ls ->
  Forall (fun p => arr_tree (fst p) (snd p) /\ fits16 (snd p) /\
            Forall (readable rd) (a_threshold (fst p)) /\ Forall (readable rd) (a_leaf (fst p))) ps ->
  (arr_tree p t /\ fits16 t /\ Forall (readable rd) (a_threshold p) /\ Forall (readable rd) (a_leaf p)) -> (2 <= j <= 7)%nat ->
  let ts := map (convert (cell_of rd) (cell_of rd)) (placed 0 ps) in
  (forall row, In row X -> covers row (convert (cell_of rd) (cell_of rd) t :: ts)) ->
  exists e, lgbm_load rd f = Ok e /\ basic_scoring e X = Ok (map (ensemble_score (map (fun _ => none) ps) ts) X).
Proof.
  intros rd ps p t j ls f X D F G GT J ts CV. destruct (lgbm_cut rd ps p t j ls f X D F G GT J CV) as (e & v & L & S & _).
  exists e. split; [exact L|]. rewrite S. f_equal. apply map_ext. intros row. cbn [nf32 nadd nmul nzero RE RN]. rewrite Rmult_0_r, Rplus_0_r. reflexivity.
Qed.
Print Assumptions C97_lightgbm_cut_exact.

(** After the first line of a tree, scoring reads outside the arrays. *)
Theorem C97_lightgbm_no_node : forall (N : num) (rd : text -> option N) ps p ls f (X : list (list N)),
  cut_file rd ps p 1 ls -> file_text f ls ->
  Forall (fun p => arr_tree (fst p) (snd p) /\ fits16 (snd p) /\
            Forall (readable rd) (a_threshold (fst p)) /\ Forall (readable rd) (a_leaf (fst p))) ps -> X <> [] ->
  exists e, lgbm_load rd f = Ok e /\ basic_scoring e X = Err MemFault.
Proof. exact (@lgbm_cut_first). Qed.
Print Assumptions C97_lightgbm_no_node.

(** Two trees with one split each; the row takes the right branch, then the left one. *)
Definition lgbm_two : list string :=
  ["tree"; "Tree=0"; "num_leaves=2"; "split_feature=1"; "threshold=3"; "left_child=-1"; "right_child=-2"; "leaf_value=1 2"; "shrinkage=0.1"; "";
   "Tree=1"; "num_leaves=2"; "split_feature=0"; "threshold=9"; "left_child=-1"; "right_child=-2"; "leaf_value=40 50"; "shrinkage=0.1"]%string.
Definition lgbm_scored (n : nat) : res (list Q * list Q) :=
  do e <- lgbm_load rdQ (lines (firstn n lgbm_two)); do s <- basic_scoring (N:=QN) e [[5; 7]]%Q; Ok (s, e_weight e).
Example C97_lightgbm_example :
  map lgbm_scored [1; 2; 3; 7; 8; 9; 10; 11; 12; 14; 16; 17; 18]%nat =
  [Ok ([0], []); Err MemFault; Ok ([0], [0]); Ok ([0], [0]); Ok ([0], [0]); Ok ([2], [1]); Ok ([2], [1]); Err MemFault;
   Ok ([2], [1; 0]); Ok ([2], [1; 0]); Ok ([2], [1; 0]); Ok ([2], [1; 0]); Ok ([42], [1; 1])]%Q.
Proof. vm_compute. reflexivity. Qed.
(** The first five lines are a file as in the theorems. *)
Definition cut_arrays : arrays := mkArr [1] [lit "3"] [-1] [-2] [lit "1"; lit "2"].
Example C97_lightgbm_cut_file : cut_file rdQ [] cut_arrays 4 (map (fun s => lit s ++ [newline]) (firstn 5 lgbm_two)) /\
  arr_tree cut_arrays (Node 0 1 (lit "3") (Leaf (-1) (lit "1")) (Leaf (-2) (lit "2"))).
Proof.
  assert (ONE : forall k w, ~ In newline w -> word w -> key_words k [w] (lit k ++ w ++ [newline])).
  { intros k w H W. exists w, [newline]. split; [reflexivity|]. split; [exact H|]. split; [right; reflexivity|].
    replace w with ([] ++ w ++ []) at 2 by (cbn [app]; apply app_nil_r). constructor; [constructor|exact W|constructor; constructor|auto]. }
  assert (NL : ~ digit_char newline) by (intros H; vm_compute in H; intuition discriminate).
  assert (WD : forall c, ~ blank_char c -> word [c]) by (intros c H; split; [discriminate|constructor; [exact H|constructor]]).
  assert (NB : ~ blank_char "1"%char /\ ~ blank_char "3"%char) by (split; intros H; vm_compute in H; intuition discriminate).
  split.
  - unfold cut_file. apply among_other.
    { apply other_key. intros k Hk (r & E). cbn [lgbm_keys In] in Hk. repeat (destruct Hk as [<-|Hk]; [discriminate E|]). destruct Hk. }
    apply among_core; [|apply among_core; [|apply among_core; [|apply among_core; [|constructor]]]].
    + exists (lit "0"), [newline]. split; [reflexivity|]. split; [|right; exists newline, []; auto].
      split; [constructor; [cbn; tauto|constructor]|split; [discriminate|reflexivity]].
    + exists (lit "2"), [newline]. split; [reflexivity|]. split; [|right; exists newline, []; auto].
      split; [constructor; [cbn; tauto|constructor]|split; [discriminate|reflexivity]].
    + exists [lit "1"]. split; [apply (ONE "split_feature="%string (lit "1"))|].
      * intros [H|[]]; discriminate H.
      * apply WD, NB.
      * constructor; [|constructor]. exists [], false, (lit "1"). split; [reflexivity|]. split; [constructor|].
        split; [constructor; [cbn; tauto|constructor]|split; [discriminate|reflexivity]].
    + apply (ONE "threshold="%string (lit "3")).
      * intros [H|[]]; discriminate H.
      * apply WD, NB.
  - repeat split; try lia. change (Permutation [0; -1; -2] [-2; -1; 0]). apply (Permutation_rev [0; -1; -2]).
Qed.
(** A file without its last line loads, and the last tree is ignored. *)
Theorem C97_incomplete_lightgbm_refuted :
  lgbm_scored 17 = Ok ([2], [1; 0])%Q /\ lgbm_scored 18 = Ok ([42], [1; 1])%Q.
Proof. vm_compute. auto. Qed.
