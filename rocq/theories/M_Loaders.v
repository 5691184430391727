(** Model of the loaders that read structured documents: rankeval/model/proxy_QuickRank.py
    (with its writer), proxy_Jforests.py and proxy_CatBoost.py.

    An XML file is the tree of its elements: decoding, comments, tails and the XML
    parser itself are not modelled; etree.iterparse delivers the start and end events in
    document order (elem.clear() and root.clear() only free memory).  A CoreML file is
    the list of its tree nodes.  Cells follow NumPy 1.x: an int16 or uint16 cell keeps
    the low 16 bits, a float32 cell is rounded ([nf32]); an int32 cell (roots, children) is
    an unbounded integer: models with 2^31 nodes do not exist and a child number that
    large only occurs in a malformed file. *)
From Coq Require Import Ascii String List ZArith Bool.
From Verif Require Import Base Num M_Text M_Dataset M_Ensemble M_Float.
Import ListNotations.
Local Open Scope Z_scope.

Definition i16 := wrap_s 16.
Definition u16 := wrap_u 16.

(** str.strip() and int() (ASCII; no underscores). *)
Definition py_strip (t : text) : text := rev (skip_space (rev (skip_space t))).
Definition py_int (t : text) : res Z :=
  let '(neg, ds) := take_sign (py_strip t) in
  if is_nil ds || negb (forallb is_digit ds) then Err ValueError
  else Ok (if neg then - digits_val ds else digits_val ds).

(** float() of a decimal numeral; "inf", "nan" and underscores are not modelled. *)
Definition py_float (t : text) : option numtok :=
  match istream_float (py_strip t) with Some (n, []) => Some n | _ => None end.

(** ** XML documents *)
Inductive xml : Type :=
| Elem (tag : string) (attrs : list (string * text)) (txt : option text) (kids : list xml).
Definition x_tag (x : xml) : string := let '(Elem t _ _ _) := x in t.
Definition x_attrs (x : xml) : list (string * text) := let '(Elem _ a _ _) := x in a.
Definition x_text (x : xml) : option text := let '(Elem _ _ t _) := x in t.
Definition has_tag (s : string) (x : xml) : bool := String.eqb (x_tag x) s.
Fixpoint attr (k : string) (l : list (string * text)) : option text :=
  match l with
  | [] => None
  | (k', v) :: r => if String.eqb k' k then Some v else attr k r
  end.
(** [elem.text.strip()]: the text of an empty element is None. *)
Definition text_of (x : xml) : res text := of_option AttributeError (x_text x).

Inductive event : Type := EStart (x : xml) | EEnd (x : xml).
Fixpoint events (x : xml) : list event :=
  let '(Elem _ _ _ kids) := x in
  EStart x :: (fix all (l : list xml) := match l with [] => [] | k :: r => events k ++ all r end) kids ++ [EEnd x].
Definition is_end (ev : event) : bool := match ev with EEnd _ => true | EStart _ => false end.

Section Loaders.
Context {N : num}.
(** float(): [None] is a ValueError. *)
Variable rd : text -> option N.
(** repr() of a float32 and of a Python float. *)
Variable repr : N -> text.

Definition read_cell (t : text) : res N := do v <- of_option ValueError (rd t); Ok (nf32 v).

(** Assignments to the arrays of the model. *)
Definition set_root (e : ensemble N) (i v : Z) : res (ensemble N) :=
  do a <- py_set (e_root e) i v;
  Ok (mkEns (e_ntrees e) (e_nnodes e) a (e_weight e) (e_left e) (e_right e) (e_value e) (e_feature e)).
Definition set_weight (e : ensemble N) (i : Z) (v : N) : res (ensemble N) :=
  do a <- py_set (e_weight e) i v;
  Ok (mkEns (e_ntrees e) (e_nnodes e) (e_root e) a (e_left e) (e_right e) (e_value e) (e_feature e)).
Definition set_left (e : ensemble N) (i v : Z) : res (ensemble N) :=
  do a <- py_set (e_left e) i v;
  Ok (mkEns (e_ntrees e) (e_nnodes e) (e_root e) (e_weight e) a (e_right e) (e_value e) (e_feature e)).
Definition set_right (e : ensemble N) (i v : Z) : res (ensemble N) :=
  do a <- py_set (e_right e) i v;
  Ok (mkEns (e_ntrees e) (e_nnodes e) (e_root e) (e_weight e) (e_left e) a (e_value e) (e_feature e)).
Definition set_value (e : ensemble N) (i : Z) (v : N) : res (ensemble N) :=
  do a <- py_set (e_value e) i v;
  Ok (mkEns (e_ntrees e) (e_nnodes e) (e_root e) (e_weight e) (e_left e) (e_right e) a (e_feature e)).
Definition set_feature (e : ensemble N) (i v : Z) : res (ensemble N) :=
  do a <- py_set (e_feature e) i (i16 v);
  Ok (mkEns (e_ntrees e) (e_nnodes e) (e_root e) (e_weight e) (e_left e) (e_right e) (e_value e) a).

(** ** QuickRank *)

(** proxy_QuickRank.py 209-243: _count_nodes; the first end event is skipped.  An empty
    document cannot be parsed, so [next] never fails. *)
Definition quick_count (x : xml) : Z * Z :=
  fold_left (fun c ev =>
      match ev with
      | EEnd k => if has_tag "tree" k then (fst c + 1, snd c)
                  else if has_tag "feature" k || has_tag "output" k then (fst c, snd c + 1) else c
      | EStart _ => c
      end) (tl (filter is_end (events x))) (0, 0).

(** Lines 60-62: curr_tree, curr_node, split_stack (top first). *)
Record qstate : Type := mkQ { q_ens : ensemble N; q_tree : Z; q_node : Z; q_stack : list Z }.

(** Lines 63-95: one event. *)
Definition quick_step (s : qstate) (ev : event) : res qstate :=
  let e := q_ens s in
  match ev with
  | EStart x =>
      if has_tag "tree" x then
        let t := q_tree s + 1 in
        let n := q_node s + 1 in
        do e1 <- set_root e t n;
        do w <- of_option KeyError (attr "weight" (x_attrs x));
        do v <- read_cell w;
        do e2 <- set_weight e1 t v;
        Ok (mkQ e2 t n (q_stack s))
      else if has_tag "split" x then
        match attr "pos" (x_attrs x) with
        | Some pos =>
            match q_stack s with
            | [] => Err IndexError
            | parent :: _ =>
                let n := q_node s + 1 in
                do e1 <- (if list_eq_dec ascii_dec pos (lit "left") then set_left e parent n else set_right e parent n);
                Ok (mkQ e1 (q_tree s) n (n :: q_stack s))
            end
        | None => Ok (mkQ e (q_tree s) (q_node s) (q_node s :: q_stack s))
        end
      else Ok s
  | EEnd x =>
      if has_tag "split" x then
        match q_stack s with
        | [] => Err IndexError
        | _ :: st => Ok (mkQ e (q_tree s) (q_node s) st)
        end
      else if has_tag "feature" x then
        do t <- text_of x;
        do f <- py_int (py_strip t);
        do e1 <- set_feature e (q_node s) (f - 1);
        Ok (mkQ e1 (q_tree s) (q_node s) (q_stack s))
      else if has_tag "threshold" x || has_tag "output" x then
        do t <- text_of x;
        do v <- read_cell (py_strip t);
        do e1 <- set_value e (q_node s) v;
        Ok (mkQ e1 (q_tree s) (q_node s) (q_stack s))
      else Ok s
  end.

(** proxy_QuickRank.py 39-95: load. *)
Definition quick_load (x : xml) : res (ensemble N) :=
  let '(nt, nn) := quick_count x in
  do e <- initialize nt nn;
  do s <- foldM quick_step (tl (events x)) (mkQ e (-1) (-1) []);
  Ok (q_ens s).

(** proxy_QuickRank.py 169-207: _get_node_xml_element (the walk ends unless the arrays
    are cyclic).  _xmlprettyprint only adds white space between elements. *)
Definition leaf_elem (tag : string) (t : text) : xml := Elem tag [] (Some t) [].
Fixpoint quick_node (fuel : nat) (e : ensemble N) (i : Z) (child : option string) : res xml :=
  match fuel with
  | O => Err Diverge
  | S f =>
      let attrs := match child with Some c => [("pos"%string, lit c)] | None => [] end in
      do leaf <- is_leaf_node e i;
      if leaf then
        do v <- py_get (e_value e) i;
        Ok (Elem "split" attrs None [leaf_elem "output" (repr v)])
      else
        do feat <- py_get (e_feature e) i;
        do thr <- py_get (e_value e) i;
        do l <- py_get (e_left e) i;
        do xl <- quick_node f e l (Some "left"%string);
        do r <- py_get (e_right e) i;
        do xr <- quick_node f e r (Some "right"%string);
        Ok (Elem "split" attrs None
              [leaf_elem "feature" (show_Z (feat + 1)); leaf_elem "threshold" (repr thr); xl; xr])
  end.

(** proxy_QuickRank.py 117-167: save, up to the serialisation of the element tree. *)
Definition quick_save (m : model N) : res xml :=
  let e := m_ens m in
  do ml <- max_leaves e;
  do trees <- mapM (fun t => do w <- py_get (e_weight e) t;
                             do r <- py_get (e_root e) t;
                             do x <- quick_node (S (length (e_left e))) e r None;
                             Ok (Elem "tree" [("id"%string, show_Z (t + 1)); ("weight"%string, repr w)] None [x]))
                   (zrange 0 (e_ntrees e));
  Ok (Elem "ranker" [] None
        [Elem "info" [] None
           [leaf_elem "type" (lit "MART"); leaf_elem "trees" (show_Z (e_ntrees e));
            leaf_elem "leaves" (show_Z ml); leaf_elem "shrinkage" (repr (m_lr m));
            leaf_elem "leafsupport" (lit "0"); leaf_elem "discretization" (lit "0"); leaf_elem "estop" (lit "0")];
         Elem "ensemble" [] None trees]).

(** ** Jforests *)

(** [s.split(" ")]: the empty text is one empty word. *)
Fixpoint split_from (cur : text) (l : text) : list text :=
  match l with
  | [] => [rev cur]
  | c :: r => if Ascii.eqb c " " then rev cur :: split_from [] r else split_from (c :: cur) r
  end.
Definition split_blank (t : text) : list text := split_from [] t.

(** proxy_Jforests.py 139-180: _count_nodes. *)
Definition jf_count (x : xml) : res (Z * Z) :=
  foldM (fun c ev =>
      match ev with
      | EEnd k => if has_tag "Tree" k then Ok (fst c + 1, snd c)
                  else if has_tag "SplitFeatures" k || has_tag "LeafOutputs" k
                  then do t <- text_of k; Ok (fst c, snd c + Z.of_nat (length (split_blank t)))
                  else Ok c
      | EStart _ => Ok c
      end) (tl (events x)) (0, 0).

(** A child reference: an internal node of the tree, or leaf -(k+1). *)
Definition child_ref (root splits child : Z) : Z :=
  if 0 <=? child then root + child else root + splits + Z.abs child - 1.

(** [for pos, v in enumerate(l): array[base + pos] = v]. *)
Definition fill {A} (set : ensemble N -> Z -> A -> res (ensemble N)) (base : Z) (l : list A) (e : ensemble N)
  : res (ensemble N) :=
  do s <- foldM (fun s v => do e' <- set (fst s) (snd s) v; Ok (e', snd s + 1)) l (e, base);
  Ok (fst s).

Record jstate : Type := mkJ { j_ens : ensemble N; j_tree : Z; j_root : Z; j_leaves : Z; j_splits : Z }.

(** Assignments from words: [map(int, ...)] and [map(float, ...)] are consumed lazily, so
    each word is converted just before it is stored. *)
Definition put_feature (e : ensemble N) (i : Z) (w : text) : res (ensemble N) :=
  do f <- py_int w; set_feature e i f.
Definition put_left (root splits : Z) (e : ensemble N) (i : Z) (w : text) : res (ensemble N) :=
  do c <- py_int w; set_left e i (child_ref root splits c).
Definition put_right (root splits : Z) (e : ensemble N) (i : Z) (w : text) : res (ensemble N) :=
  do c <- py_int w; set_right e i (child_ref root splits c).
Definition put_value (e : ensemble N) (i : Z) (w : text) : res (ensemble N) :=
  do v <- read_cell w; set_value e i v.

(** proxy_Jforests.py 63-113: one event. *)
Definition jf_step (s : jstate) (ev : event) : res jstate :=
  let e := j_ens s in
  let root := j_root s in
  match ev with
  | EStart x =>
      if has_tag "Tree" x then
        let t := j_tree s + 1 in
        let root := j_root s + (j_leaves s + j_splits s) in
        do e1 <- set_root e t root;
        do w <- of_option KeyError (attr "weight" (x_attrs x));
        do v <- read_cell w;
        do e2 <- set_weight e1 t v;
        Ok (mkJ e2 t root (j_leaves s) (j_splits s))
      else Ok s
  | EEnd x =>
      if has_tag "SplitFeatures" x then
        do t <- text_of x;
        do e1 <- fill put_feature root (split_blank t) e;
        Ok (mkJ e1 (j_tree s) root (j_leaves s) (Z.of_nat (length (split_blank t))))
      else if has_tag "LeftChildren" x then
        do t <- text_of x;
        do e1 <- fill (put_left root (j_splits s)) root (split_blank t) e;
        Ok (mkJ e1 (j_tree s) root (j_leaves s) (j_splits s))
      else if has_tag "RightChildren" x then
        do t <- text_of x;
        do e1 <- fill (put_right root (j_splits s)) root (split_blank t) e;
        Ok (mkJ e1 (j_tree s) root (j_leaves s) (j_splits s))
      else if has_tag "OriginalThresholds" x then
        do t <- text_of x;
        do e1 <- fill put_value root (split_blank t) e;
        Ok (mkJ e1 (j_tree s) root (j_leaves s) (j_splits s))
      else if has_tag "LeafOutputs" x then
        do t <- text_of x;
        do e1 <- fill put_value (root + j_splits s) (split_blank t) e;
        Ok (mkJ e1 (j_tree s) root (Z.of_nat (length (split_blank t))) (j_splits s))
      else Ok s
  end.

(** proxy_Jforests.py 36-113: load. *)
Definition jf_load (x : xml) : res (ensemble N) :=
  do c <- jf_count x;
  do e <- initialize (fst c) (snd c);
  do s <- foldM jf_step (tl (events x)) (mkJ e (-1) 0 0 0);
  Ok (j_ens s).

(** ** CatBoost (CoreML) *)
Inductive behavior : Type := BLeaf | BGreater | BLessEqual | BOther.
Record cnode : Type := mkC {
  c_tree : Z; c_id : Z; c_behavior : behavior;
  c_true : Z; c_false : Z; c_feature : Z; c_value : N; c_eval : list N
}.

(** proxy_CatBoost.py 133-162: _count_nodes; [junk] is np.empty. *)
Definition cat_count (junk : list Z) (nodes : list cnode) : res (Z * Z) :=
  match map c_tree nodes with
  | [] => Err ValueError
  | x :: r =>
      let n_trees := fold_left Z.max r x + 1 in
      do last <- foldM (fun a nd => py_set a (c_tree nd) (u16 (c_id nd))) nodes
                       (firstn (Z.to_nat n_trees) junk);
      Ok (n_trees, fold_left Z.add (map (fun k => u16 (k + 1)) last) 0)
  end.

(** Lines 110-112: remap_nodeId. *)
Definition remap (per_tree i : Z) : Z := per_tree - 1 - i.

(** Lines 76-108: one node. *)
Definition cat_step (per_tree : Z) (e : ensemble N) (nd : cnode) : res (ensemble N) :=
  let off := c_tree nd * per_tree in
  let i := remap per_tree (c_id nd) in
  do e1 <- (if i =? 0 then do e1 <- set_root e (c_tree nd) off; set_weight e1 (c_tree nd) none else Ok e);
  match c_behavior nd with
  | BLeaf =>
      match c_eval nd with
      | [] => Err IndexError
      | v :: _ => set_value e1 (i + off) (nf32 v)
      end
  | BOther => Err AssertionError
  | b =>
      let left := match b with BGreater => c_false nd | _ => c_true nd end in
      let right := match b with BGreater => c_true nd | _ => c_false nd end in
      do e2 <- set_value e1 (i + off) (nf32 (c_value nd));
      do e3 <- set_feature e2 (i + off) (c_feature nd);
      do e4 <- set_left e3 (i + off) (off + remap per_tree left);
      set_right e4 (i + off) (off + remap per_tree right)
  end.

(** Lines 44-108: load. *)
Definition cat_load (junk : list Z) (nodes : list cnode) : res (ensemble N) :=
  do c <- cat_count junk nodes;
  do e <- initialize (fst c) (snd c);
  foldM (cat_step (snd c / fst c)) nodes e.

(** ** The constructor *)
Inductive format : Type := QuickRank | LightGBM | XGBoost | ScikitLearn | Jforests | CatBoost | Other.
(** rt_ensemble.py 101-148 around the loader: defaults of learning_rate and base_score
    ([lr], [base] are the arguments; the scikit-learn loader replaces both). *)
Definition default_base (f : format) (half : N) (base : option N) : option N :=
  match base, f with None, XGBoost => Some half | _, _ => base end.
Definition construct (half : N) (f : format) (lr : N) (base : option N) (n_trees : option Z) (e : res (ensemble N))
  : res (model N) :=
  match f with
  | Other => Err TypeError
  | _ => do e1 <- e; limit_trees (mkModel e1 lr (default_base f half base) []) n_trees
  end.
End Loaders.

(** ** Numbers: float() of a text as an exact rational and as a float32 (infinite results
    are refused); a float32 printed with nine digits. *)
Definition rdQ (t : text) : option QN := match py_float t with Some n => Some (dec_value n) | None => None end.
Definition rd32 (t : text) : option F32N :=
  match py_float t with
  | Some n => match read_double_float n with Fin neg k => Some (if neg then - k else k) | _ => None end
  | None => None
  end.
Definition f32_of (o : Z) : f32 := if o <? 0 then Fin true (- o) else Fin false o.
Definition show32 (o : F32N) : text := show_f32 (f32_of o).
