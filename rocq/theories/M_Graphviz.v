(** Model of visualization/topological.py 147-478: export_graphviz.
    The result is the list of the statements of the DOT file, not its characters: how numbers, colours,
    fonts and quotes are printed is left out (get_color 210-222, the strings of 224-290), what is printed
    is kept.  [out_file] is None: the text is returned. *)
From Coq Require Import Ascii String List ZArith Bool.
From Verif Require Import Base Num M_Text M_Ensemble M_Effectiveness.
Import ListNotations.
Local Open Scope Z_scope.

(** Dictionaries with default 0 (defaultdict(lambda: 0)): reading a key inserts it. *)
Definition dget (d : list (Z * Z)) (k : Z) : Z := match find (fun p => fst p =? k) d with Some p => snd p | None => 0 end.
Definition dhas (d : list (Z * Z)) (k : Z) : bool := existsb (fun p => fst p =? k) d.
Definition dtouch (d : list (Z * Z)) (k : Z) : list (Z * Z) := if dhas d k then d else d ++ [(k, 0)].
Definition dset (d : list (Z * Z)) (k v : Z) : list (Z * Z) :=
  if dhas d k then map (fun p => if fst p =? k then (k, v) else p) d else d ++ [(k, v)].
(** np.unique(..., return_counts=True), 414-416. *)
Definition tally (col : list Z) : list (Z * Z) := map (fun v => (v, Z.of_nat (length (filter (Z.eqb v) col)))) (unique col).
Definition zmin (l : list Z) : res Z := match l with [] => Err ValueError | x :: r => Ok (fold_left Z.min r x) end.
Definition zmax (l : list Z) : res Z := match l with [] => Err ValueError | x :: r => Ok (fold_left Z.max r x) end.

(** Comparison of strings, for [sorted]. *)
Fixpoint text_leb (a b : text) : bool :=
  match a, b with
  | [], _ => true
  | _, [] => false
  | x :: a', y :: b' => if code x <? code y then true else if code y <? code x then false else text_leb a' b'
  end.

Section Graphviz.
Context {N : num}.

Inductive labelling : Type := LabelAll | LabelLeaves | LabelOther.
(** The arguments that decide what is shown.  Whether a NumPy integer counts as a mapping for the
    % operator on strings decides what line 365 does, see [recurse]. *)
Record options : Type := mkOptions {
  o_max_depth : option Z; o_leaves : option (list (list Z)); o_label : labelling; o_label_show : bool;
  o_names : option (list text); o_highlight : bool; o_parallel : bool; o_node_ids : bool; o_proportion : bool;
  o_precision : Z; o_np_mapping : bool }.

(** What a box says: the node number, the count with the largest count when proportions are asked
    for, and the test or the output.  The colour is a ratio between two bounds. *)
Inductive body : Type := Test (feature : text + Z) (threshold : N) | Output (value : N).
Inductive fill : Type := NoFill | White | Grey | ByCount (value low high : Z) | ByValue (value low high : N).
Record box : Type := mkBox { b_id : option Z; b_count : option (Z * option Z); b_body : body; b_fill : fill }.
Inductive item : Type :=
| Box (id : Z) (b : box)
| Dots (id : Z) (f : fill)
| Arrow (parent child : Z) (head : option bool)
| Rank (key : option Z) (ids : list Z).

(** Lines 292-299: recursive_count. *)
Fixpoint recursive_count (fuel : nat) (e : ensemble N) (d : list (Z * Z)) (i : Z) : res (Z * list (Z * Z)) :=
  match fuel with
  | O => Err Diverge
  | S f =>
      do leaf <- is_leaf_node e i;
      if leaf then Ok (dget d i, dtouch d i)
      else
        do l <- py_get (e_left e) i;
        do lc <- recursive_count f e d l;
        do r <- py_get (e_right e) i;
        do rc <- recursive_count f e (snd lc) r;
        let v := fst lc + fst rc in
        Ok (v, dset (snd rc) i v)
  end.

(** The colour bounds: of the counts, or of the leaf values. *)
Inductive bounds : Type := CountBounds (low high : Z) | ValueBounds (low high : N).

Section Recurse.
Variables (e : ensemble N) (o : options) (tree_id : Z) (counts : list (Z * Z)) (bd : bounds).

(** Lines 224-290: node_to_str; 322-339: the colour. *)
Definition describe (i : Z) : res box :=
  do leaf <- is_leaf_node e i;
  let all := match o_label o with LabelAll => true | _ => false end in
  let given := match o_leaves o with Some _ => true | None => false end in
  let count := if given && o_label_show o && (all || leaf)
               then Some (dget counts i, if o_proportion o then match bd with CountBounds _ h => Some h | _ => None end else None) else None in
  do v <- py_get (e_value e) i;
  do b <- (if leaf then Ok (Output v)
           else do f <- py_get (e_feature e) i;
                match o_names o with
                | Some names => do s <- py_get names f; Ok (Test (inl s) v)
                | None => Ok (Test (inr f) v)
                end);
  let colour :=
    if given then if leaf || all then match bd with CountBounds lo hi => ByCount (dget counts i) lo hi | _ => NoFill end else White
    else if o_highlight o then if leaf then match bd with ValueBounds lo hi => ByValue v lo hi | _ => NoFill end else White
    else NoFill in
  Ok (mkBox (if o_node_ids o then Some i else None) count b colour).

(** Lines 301-369: recurse.  Beyond max_depth line 365, '] ;\n' % node_id, formats a string without a
    conversion: a TypeError unless the argument is a mapping (PyMapping_Check).  The second component
    lists the entries of [ranks], None for 'leaves'. *)
Fixpoint recurse (fuel : nat) (i : Z) (parent : option Z) (depth : Z) : res (list item * list (option Z * Z)) :=
  match fuel with
  | O => Err Diverge
  | S f =>
      do bad <- match parent with Some p => is_leaf_node e p | None => Ok false end;
      if bad then Err ValueError else
      if match o_max_depth o with None => true | Some m => depth <=? m end then
        do leaf <- is_leaf_node e i;
        do b <- describe i;
        do arrow <- match parent with
                    | None => Ok []
                    | Some p =>
                        do root <- py_get (e_root e) tree_id;
                        if root =? p then do l <- py_get (e_left e) p; Ok [Arrow p i (Some (l =? i))]
                        else Ok [Arrow p i None]
                    end;
        if leaf then Ok (Box i b :: arrow, [(None, i)])
        else
          do l <- py_get (e_left e) i;
          do x <- recurse f l (Some i) (depth + 1);
          do r <- py_get (e_right e) i;
          do y <- recurse f r (Some i) (depth + 1);
          Ok (Box i b :: arrow ++ fst x ++ fst y, (Some depth, i) :: snd x ++ snd y)
      else
        if negb (o_np_mapping o) then Err TypeError else
        let grey := match o_leaves o with Some _ => Grey | None => if o_highlight o then Grey else NoFill end in
        Ok (Dots i grey :: match parent with Some p => [Arrow p i None] | None => [] end, [(None, i)])
  end.
End Recurse.

Definition rank_key (k : option Z) : text := match k with None => lit "leaves" | Some d => show_Z d end.
Definition okey_dec : forall a b : option Z, {a = b} + {a <> b}.
Proof. decide equality. apply Z.eq_dec. Defined.
(** Lines 466-469. *)
Definition rank_items (rk : list (option Z * Z)) : list item :=
  map (fun k => Rank k (map snd (filter (fun p => if okey_dec (fst p) k then true else false) rk)))
      (isort (fun a b => text_leb (rank_key a) (rank_key b)) (nodup okey_dec (map fst rk))).

(** Smallest and largest leaf value, 428-439; np.min of nothing is a ValueError;
    a NaN is kept. *)
Definition nmin_list (l : list N) : res N := match l with [] => Err ValueError | x :: r => Ok (fold_left (fun a b => if nleb a b || negb (nleb a a) then a else b) r x) end.
Definition nmax_list (l : list N) : res N := match l with [] => Err ValueError | x :: r => Ok (fold_left (fun a b => if nleb b a || negb (nleb a a) then a else b) r x) end.
Definition value_bounds (e : ensemble N) (tree_id : Z) : res bounds :=
  do s <- py_get (e_root e) tree_id;
  do ns <- num_nodes e;
  do n <- py_get ns tree_id;
  do vs <- mapM (fun i => do leaf <- is_leaf_node e i; if leaf then do v <- py_get (e_value e) i; Ok [v] else Ok []) (zrange s (s + n));
  do lo <- nmin_list (concat vs);
  do hi <- nmax_list (concat vs);
  Ok (ValueBounds lo hi).

(** Lines 372-478. *)
Definition export_graphviz (e : ensemble N) (tree_id : Z) (o : options) : res (list item) :=
  if o_precision o <? 0 then Err ValueError else
  do _ <- match o_names o with
          | None => Ok tt
          | Some names => do m <- zmax (e_feature e); if m + 1 <? Z.of_nat (length names) then Err ValueError else Ok tt
          end;
  if e_ntrees e - 1 <? tree_id then Err ValueError else
  do cb <- match o_leaves o with
           | Some rows =>
               do col <- mapM (fun row => py_get row tree_id) rows;
               do root <- py_get (e_root e) tree_id;
               do c <- recursive_count (S (length (e_left e))) e (tally col) root;
               match o_label o with
               | LabelAll => do lo <- zmin (map snd (snd c)); do hi <- zmax (map snd (snd c)); Ok (snd c, CountBounds lo hi)
               | LabelLeaves => do lo <- zmin (map snd (tally col)); do hi <- zmax (map snd (tally col)); Ok (snd c, CountBounds lo hi)
               | LabelOther => Err ValueError
               end
           | None => do b <- value_bounds e tree_id; Ok ([], b)
           end;
  do root <- py_get (e_root e) tree_id;
  do x <- recurse e o tree_id (fst cb) (snd cb) (S (length (e_left e))) root None 0;
  Ok (fst x ++ if o_parallel o then rank_items (snd x) else []).
End Graphviz.
Arguments options : clear implicits.
Arguments body N : clear implicits.
Arguments item N : clear implicits.
Arguments box N : clear implicits.
