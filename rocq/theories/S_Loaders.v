(** What the model files mean: documents and texts that describe trees, independently of
    the loaders. *)
From Coq Require Import Ascii String List ZArith Bool Permutation.
From Verif Require Import Base Num M_Text M_Svmlight S_Svmlight M_Dataset M_Ensemble S_Ensemble M_Loaders.
Import ListNotations.
Local Open Scope Z_scope.

(** ** Numbering and reading trees *)
Section Trees.
Context {A V : Type}.
(** Nodes numbered from [i], each node before its left subtree before its right one. *)
Fixpoint preorder (i : Z) (t : tree A V) : tree Z V :=
  match t with
  | Leaf _ v => Leaf i v
  | Node _ f thr l r =>
      Node i f thr (preorder (i + 1) l) (preorder (i + 1 + Z.of_nat (size l)) r)
  end.
Fixpoint preorder_all (i : Z) (ts : list (tree A V)) : list (tree Z V) :=
  match ts with
  | [] => []
  | t :: r => preorder i t :: preorder_all (i + Z.of_nat (size t)) r
  end.
(** The tree with other annotations. *)
Fixpoint relabel {B} (g : A -> B) (t : tree A V) : tree B V :=
  match t with
  | Leaf a v => Leaf (g a) v
  | Node a f thr l r => Node (g a) f thr (relabel g l) (relabel g r)
  end.
(** The tree with its thresholds and leaf values converted. *)
Fixpoint convert {W} (thr leaf : V -> W) (t : tree A V) : tree A W :=
  match t with
  | Leaf a v => Leaf a (leaf v)
  | Node a f x l r => Node a f (thr x) (convert thr leaf l) (convert thr leaf r)
  end.
(** Thresholds and leaf values. *)
Fixpoint values (t : tree A V) : list V :=
  match t with Leaf _ v => [v] | Node _ _ x l r => x :: values l ++ values r end.
End Trees.
(** The features fit int16 cells. *)
Definition fits16 {A V} (t : tree A V) : Prop := Forall (fun f => - 2 ^ 15 <= f < 2 ^ 15) (splits t).

(** ** Texts *)
(** A signed integer. *)
Definition int_dec (t : text) (q : Z) : Prop :=
  exists sg neg ds, t = sg ++ ds /\ sign_text sg neg /\ digits ds /\ ds <> [] /\
    q = (if neg then - dvalue ds else dvalue ds).
(** An unsigned one. *)
Definition nat_dec (t : text) (n : Z) : Prop := digits t /\ t <> [] /\ dvalue t = n.
(** A word with white space around it. *)
Definition padded (s w : text) : Prop := exists a b, blanks a /\ blanks b /\ s = a ++ w ++ b.

Section Values.
Context {N : num}.
Variable rd : text -> option N.
Definition readable (t : text) : Prop := exists v, rd t = Some v.
(** What a float32 cell holds once the text is stored in it. *)
Definition cell_of (t : text) : N := match rd t with Some v => nf32 v | None => nzero end.
End Values.

(** ** QuickRank documents *)
Fixpoint quiet (tags : list string) (x : xml) : Prop :=
  let '(Elem tag _ _ kids) := x in
  ~ In tag tags /\ (fix all (l : list xml) := match l with [] => True | k :: r => quiet tags k /\ all r end) kids.
Definition quick_tags : list string := ["tree"; "split"; "feature"; "threshold"; "output"]%string.

(** A split element and the tree it describes; features are numbered from 1. *)
Inductive split_xml : tree unit text -> xml -> Prop :=
| split_leaf v attrs txt a s :
    padded s v -> word v ->
    split_xml (Leaf tt v) (Elem "split" attrs txt [Elem "output" a (Some s) []])
| split_node f thr l r attrs txt a sf tf b st xl xr :
    padded sf tf -> int_dec tf (f + 1) -> padded st thr -> word thr ->
    split_xml l xl -> split_xml r xr ->
    attr "pos" (x_attrs xl) = Some (lit "left") -> attr "pos" (x_attrs xr) = Some (lit "right") ->
    split_xml (Node tt f thr l r)
      (Elem "split" attrs txt [Elem "feature" a (Some sf) []; Elem "threshold" b (Some st) []; xl; xr]).
Inductive tree_xml : text * tree unit text -> xml -> Prop :=
| tree_elem w t attrs txt x :
    attr "weight" attrs = Some w -> split_xml t x -> attr "pos" (x_attrs x) = None ->
    tree_xml (w, t) (Elem "tree" attrs txt [x]).
(** A header, then the ensemble. *)
Inductive quick_doc (wts : list (text * tree unit text)) : xml -> Prop :=
| quick_root tag attrs txt heads eattrs etxt xs tails :
    ~ In tag quick_tags -> heads <> [] -> Forall (quiet quick_tags) heads -> Forall (quiet quick_tags) tails ->
    Forall2 tree_xml wts xs ->
    quick_doc wts (Elem tag attrs txt (heads ++ [Elem "ensemble" eattrs etxt xs] ++ tails)).

(** ** Dumps with one node per line, in pre-order *)
Definition eol (t : text) : Prop := t = [] \/ t = [newline].
(** Text without newline nor colon. *)
Definition quiet_text (t : text) : Prop := ~ In newline t /\ ~ In ":"%char t.

(** The lines of a tree whose nodes carry the number written in the dump.  [op] is the
    comparison ("<" or "<="); [leaf_tail] says what may follow the value of a leaf. *)
Section DumpText.
Variable op : string.
Variable leaf_tail : text -> Prop.
Inductive dump_tree : tree Z text -> list text -> Prop :=
| dump_leaf i v ind ti tail nl :
    blanks ind -> ~ In newline ind -> nat_dec ti i -> word v -> quiet_text v -> ~ In ","%char v ->
    leaf_tail tail -> quiet_text tail -> eol nl ->
    dump_tree (Leaf i v) [ind ++ ti ++ lit ":leaf=" ++ v ++ tail ++ nl]
| dump_node i f thr l r ind ti tf tail nl ll lr :
    blanks ind -> ~ In newline ind -> nat_dec ti i -> nat_dec tf f -> word thr -> quiet_text thr ->
    quiet_text tail -> ~ In "]"%char tail -> eol nl ->
    dump_tree l ll -> dump_tree r lr ->
    dump_tree (Node i f thr l r)
      ((ind ++ ti ++ lit ":[f" ++ tf ++ lit op ++ thr ++ lit "]" ++ tail ++ nl) :: ll ++ lr).
(** Trees number k, k + 1, ... *)
Inductive dump_trees : Z -> list (tree Z text) -> list text -> Prop :=
| dump_nil k : dump_trees k [] []
| dump_cons k tk rest t ll ts ls :
    nat_dec tk k -> dump_tree t ll -> dump_trees (k + 1) ts ls ->
    dump_trees k (t :: ts) ((lit "booster[" ++ tk ++ lit "]" ++ rest) :: ll ++ ls).
End DumpText.
(** XGBoost: more statistics may follow, after a comma. *)
Definition comma_tail (t : text) : Prop := t = [] \/ exists r, t = ","%char :: r.
Definition xgb_lines := dump_trees "<" comma_tail.
(** scikit-learn: nothing follows; the first two lines give base score and learning rate. *)
Definition no_tail (t : text) : Prop := t = [].
Inductive sk_lines (ts : list (tree Z text)) (base lr : text) : list text -> Prop :=
| sk_file nb nl ls : quiet_text base -> quiet_text lr -> base <> [] -> lr <> [] -> eol nb -> eol nl ->
    dump_trees "<=" no_tail 0 ts ls ->
    sk_lines ts base lr ((lit "base_score=" ++ base ++ nb) :: (lit "learning_rate=" ++ lr ++ nl) :: ls).
(** The numbers of the nodes of a tree are 0, 1, ... with 0 for the root. *)
Definition own_numbers {V} (t : tree Z V) : Prop :=
  mark t = 0 /\ Permutation (marks t) (zrange 0 (Z.of_nat (size t))).
(** Thresholds alone and leaf values alone. *)
Fixpoint thresholds {A V} (t : tree A V) : list V :=
  match t with Leaf _ _ => [] | Node _ _ x l r => x :: thresholds l ++ thresholds r end.
Fixpoint outputs {A V} (t : tree A V) : list V :=
  match t with Leaf _ v => [v] | Node _ _ _ l r => outputs l ++ outputs r end.
(** Trees with their own numbers, one after the other from [a]. *)
Fixpoint shifted {V} (a : Z) (ts : list (tree Z V)) : list (tree Z V) :=
  match ts with
  | [] => []
  | t :: r => relabel (Z.add a) t :: shifted (a + Z.of_nat (size t)) r
  end.

(** A printed number: no white space, no character with a meaning in a dump. *)
Definition plain_number (t : text) : Prop := word t /\ quiet_text t /\ ~ In ","%char t /\ ~ In nul t.
(** The arrays of a scikit-learn tree hold [t]; features are not negative. *)
Section SkTrees.
Context {V : Type}.
Fixpoint sk_holds (left right feature : list Z) (threshold value : list V) (t : tree Z V) : Prop :=
  match t with
  | Leaf i v => zget feature i = Some (-2) /\ zget value i = Some v
  | Node i f x l r =>
      zget feature i = Some f /\ 0 <= f /\ zget threshold i = Some x /\
      zget left i = Some (mark l) /\ zget right i = Some (mark r) /\
      sk_holds left right feature threshold value l /\ sk_holds left right feature threshold value r
  end.
End SkTrees.

(** ** Array-encoded trees (LightGBM, Jforests)

    Split nodes are numbered 0, 1, ... with 0 for the root; leaf k is written -(k+1). *)
Record arrays : Type := mkArr {
  a_feature : list Z; a_threshold : list text; a_left : list Z; a_right : list Z; a_leaf : list text
}.
Fixpoint arr_holds (a : arrays) (t : tree Z text) : Prop :=
  match t with
  | Leaf i v => i < 0 /\ zget (a_leaf a) (- i - 1) = Some v
  | Node i f x l r =>
      0 <= i /\ zget (a_feature a) i = Some f /\ zget (a_threshold a) i = Some x /\
      zget (a_left a) i = Some (mark l) /\ zget (a_right a) i = Some (mark r) /\ arr_holds a l /\ arr_holds a r
  end.
Definition arr_tree (a : arrays) (t : tree Z text) : Prop :=
  let ns := Z.of_nat (length (a_feature a)) in
  let nl := Z.of_nat (length (a_leaf a)) in
  length (a_threshold a) = length (a_feature a) /\ length (a_left a) = length (a_feature a) /\
  length (a_right a) = length (a_feature a) /\
  arr_holds a t /\ Permutation (marks t) (zrange (- nl) ns) /\ (0 < ns -> mark t = 0).
(** Where the nodes of such a tree go: splits first, then leaves. *)
Definition arr_index (root ns i : Z) : Z := if i <? 0 then root + ns + (- i - 1) else root + i.
Fixpoint placed (a : Z) (ps : list (arrays * tree Z text)) : list (tree Z text) :=
  match ps with
  | [] => []
  | (p, t) :: r => relabel (arr_index a (Z.of_nat (length (a_feature p)))) t :: placed (a + Z.of_nat (size t)) r
  end.

(** Items that satisfy the given predicates in order, among other items. *)
Inductive among {T : Type} (P : T -> Prop) : list (T -> Prop) -> list T -> Prop :=
| among_nil : among P [] []
| among_other l cs ls : P l -> among P cs ls -> among P cs (l :: ls)
| among_core (c : T -> Prop) l cs ls : c l -> among P cs ls -> among P (c :: cs) (l :: ls).

(** ** LightGBM files *)
(** Words separated by white space. *)
Inductive spaced : list text -> text -> Prop :=
| spaced_nil b : blanks b -> spaced [] b
| spaced_cons a w ws t : blanks a -> word w -> spaced ws t -> (t = [] \/ exists c r, t = c :: r /\ blank_char c) ->
    spaced (w :: ws) (a ++ w ++ t).
Definition key_words (key : string) (ws : list text) (l : text) : Prop :=
  exists t nl, l = lit key ++ t ++ nl /\ ~ In newline t /\ eol nl /\ spaced ws t.
Definition key_nat (key : string) (n : Z) (l : text) : Prop :=
  exists t r, l = lit key ++ t ++ r /\ nat_dec t n /\ (r = [] \/ exists c q, r = c :: q /\ ~ digit_char c).
Definition key_ints (key : string) (ns : list Z) (l : text) : Prop :=
  exists ws, key_words key ws l /\ Forall2 int_dec ws ns.
Definition starts (key : string) (l : text) : Prop := exists r, l = lit key ++ r.

(** The lines that matter in the block of tree [k], in order. *)
Definition lgbm_block (k : Z) (a : arrays) : list (text -> Prop) :=
  [ key_nat "Tree=" k;
    key_nat "num_leaves=" (Z.of_nat (length (a_leaf a)));
    key_ints "split_feature=" (a_feature a);
    key_words "threshold=" (a_threshold a);
    key_ints "left_child=" (a_left a);
    key_ints "right_child=" (a_right a);
    key_words "leaf_value=" (a_leaf a);
    starts "shrinkage=" ].
Fixpoint lgbm_blocks (k : Z) (l : list arrays) : list (text -> Prop) :=
  match l with [] => [] | a :: r => lgbm_block k a ++ lgbm_blocks (k + 1) r end.
(** Lines with other information. *)
Definition lgbm_keys : list string :=
  ["Tree="; "num_leaves="; "split_feature="; "threshold="; "left_child="; "right_child="; "shrinkage=";
   "leaf_value="; "decision_type="; "default_value="; "has_categorical="]%string.
Section Lgbm.
Context {N : num}.
Variable rd : text -> option N.
Inductive lgbm_other (l : text) : Prop :=
| other_key : (forall k, In k lgbm_keys -> ~ starts k l) -> lgbm_other l
| other_decision ds : key_ints "decision_type=" ds l -> Forall (fun d => d = 2) ds -> lgbm_other l
| other_default ws : key_words "default_value=" ws l ->
    Forall (fun w => exists v, rd w = Some v /\ neqb v nzero = true) ws -> lgbm_other l
| other_categorical : key_ints "has_categorical=" [0] l -> lgbm_other l.
Definition lgbm_file (l : list arrays) (ls : list text) : Prop := among lgbm_other (lgbm_blocks 0 l) ls.
(** A line that announces something unsupported. *)
Inductive lgbm_bad (l : text) : Prop :=
| bad_decision ds : key_ints "decision_type=" ds l -> Exists (fun d => d <> 2) ds -> lgbm_bad l
| bad_default ws : key_words "default_value=" ws l -> Forall (readable rd) ws ->
    Exists (fun w => exists v, rd w = Some v /\ neqb v nzero = false) ws -> lgbm_bad l
| bad_categorical n : key_ints "has_categorical=" [n] l -> n <> 0 -> lgbm_bad l.
End Lgbm.

(** ** Jforests documents *)
Definition jf_tags : list string :=
  ["Tree"; "SplitFeatures"; "LeftChildren"; "RightChildren"; "OriginalThresholds"; "LeafOutputs"]%string.
(** Words separated by one blank. *)
Inductive joined : list text -> text -> Prop :=
| joined_one w : ~ In " "%char w -> joined [w] w
| joined_cons w ws t : ~ In " "%char w -> joined ws t -> joined (w :: ws) (w ++ " "%char :: t).
Definition elem_words (tag : string) (ws : list text) (x : xml) : Prop :=
  exists attrs t, x = Elem tag attrs (Some t) [] /\ joined ws t.
Definition elem_ints (tag : string) (ns : list Z) (x : xml) : Prop :=
  exists ws, elem_words tag ws x /\ Forall2 int_dec ws ns.
Definition jf_block (a : arrays) : list (xml -> Prop) :=
  [ elem_ints "SplitFeatures" (a_feature a);
    elem_ints "LeftChildren" (a_left a);
    elem_ints "RightChildren" (a_right a);
    elem_words "OriginalThresholds" (a_threshold a);
    elem_words "LeafOutputs" (a_leaf a) ].
Definition jf_tree (p : text * arrays) (x : xml) : Prop :=
  exists attrs txt kids, x = Elem "Tree" attrs txt kids /\ attr "weight" attrs = Some (fst p) /\
    among (quiet jf_tags) (jf_block (snd p)) kids.
Inductive jf_doc (l : list (text * arrays)) : xml -> Prop :=
| jf_root tag attrs txt kids : ~ In tag jf_tags -> among (quiet jf_tags) (map jf_tree l) kids ->
    jf_doc l (Elem tag attrs txt kids).

(** ** CatBoost models *)
(** Every node of the tree, with what hangs below it. *)
Fixpoint subtrees {A V} (t : tree A V) : list (tree A V) :=
  match t with
  | Leaf _ _ => [t]
  | Node _ _ _ l r => t :: subtrees l ++ subtrees r
  end.
Section Cat.
Context {N : num}.
(** The CoreML node describes the root of [s], a subtree of tree number [k]. *)
Definition cat_says (k : nat) (s : tree Z N) (nd : @cnode N) : Prop :=
  c_tree nd = Z.of_nat k /\ c_id nd = mark s /\
  match s with
  | Leaf _ v => c_behavior nd = BLeaf /\ exists r, c_eval nd = v :: r
  | Node _ f thr l r =>
      c_feature nd = f /\ c_value nd = thr /\
      (c_behavior nd = BLessEqual /\ c_true nd = mark l /\ c_false nd = mark r \/
       c_behavior nd = BGreater /\ c_true nd = mark r /\ c_false nd = mark l)
  end.
(** The nodes of a tree are numbered from 0, the root last. *)
Definition cat_tree (t : tree Z N) : Prop :=
  Permutation (marks t) (zrange 0 (Z.of_nat (size t))) /\ mark t = Z.of_nat (size t) - 1.
(** The list describes all the nodes and nothing else, in any order in which the root of
    each tree is the last one of its tree. *)
Record cat_file (ts : list (tree Z N)) (nodes : list (@cnode N)) : Prop := {
  cat_all : forall k t s, nth_error ts k = Some t -> In s (subtrees t) -> exists nd, In nd nodes /\ cat_says k s nd;
  cat_only : forall nd, In nd nodes -> exists k t s, nth_error ts k = Some t /\ In s (subtrees t) /\ cat_says k s nd;
  cat_last : forall k t, nth_error ts k = Some t -> exists a nd b, nodes = a ++ nd :: b /\ cat_says k t nd /\
               Forall (fun nd' => c_tree nd' <> Z.of_nat k) b }.
(** Where the loader puts the trees: node [i] of tree [k] counted backwards. *)
Fixpoint backwards (n : Z) (k : nat) (ts : list (tree Z N)) : list (tree Z N) :=
  match ts with
  | [] => []
  | t :: r => relabel (fun i => Z.of_nat k * n + (n - 1 - i)) t :: backwards n (S k) r
  end.
End Cat.

(** ** XGBoost's own comparison: strictly less goes left *)
Fixpoint exit_strict {N : num} {A} (row : list N) (t : tree A N) : A * N :=
  match t with
  | Leaf a v => (a, v)
  | Node _ f thr l r => if nltb (nth (Z.to_nat f) row nzero) thr then exit_strict row l else exit_strict row r
  end.
