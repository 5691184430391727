(** Model of the characters that visualization/topological.py 147-478 (export_graphviz) writes, and of
    the file it writes them to.  M_Graphviz.v says what is drawn.

    Parameters: the texts of rounded thresholds and outputs (str of round() and np.around(), with the
    quotes and the "b" of lines 279-282 taken off), the percentages ("%.2f") and the colour map
    (its four components, times 255 and rounded).  Characters are bytes: the encoding is left out. *)
From Coq Require Import Ascii String List ZArith Bool.
From Verif Require Import Base Num M_Text M_Ensemble M_Graphviz.
Import ListNotations.
Local Open Scope Z_scope.

Section Dot.
Context {N : num}.
Variables (shown : Z -> N -> text) (percent : Z -> Z -> text) (paint : fill (N:=N) -> Z * Z * Z * Z).
(** special_characters and rounded. *)
Record style : Type := mkStyle { y_special : bool; y_rounded : bool }.

(** Lines 228-236. *)
Definition c_hash (s : bool) : text := if s then lit "&#35;" else lit "#".
Definition c_open (s : bool) : text := if s then lit "<FONT POINT-SIZE=""10""><SUB>" else lit "[".
Definition c_close (s : bool) : text := if s then lit "</SUB></FONT>" else lit "]".
Definition c_le (s : bool) : text := if s then lit "&le;" else lit "<=".
Definition c_break (s : bool) : text := if s then lit "<br/>" else lit "\n".
Definition c_end (s : bool) : text := if s then lit ">" else lit """".
Definition c_percent (s : bool) : text := if s then lit "&#37;" else lit "%".
Definition c_start (s : bool) : text := if s then lit "<" else lit """".

(** node_string[-len(e):] == e, and what is left without it. *)
Definition drop_end (e t : text) : text :=
  if list_eq_dec ascii_dec (skipn (length t - length e) t) e then firstn (length t - length e) t else t.

(** Lines 224-290: node_to_str. *)
Definition node_to_str (s : bool) (prec : Z) (b : box N) : text :=
  let ids := match b_id b with Some i => lit "node " ++ c_hash s ++ show_Z i ++ c_break s | None => [] end in
  let count := match b_count b with
               | Some (c, p) => lit "counts = " ++ show_Z c ++
                                match p with Some h => lit " (" ++ percent c h ++ c_percent s ++ lit ")" | None => [] end ++ c_break s
               | None => []
               end in
  let what := match b_body b with
              | Test f v => match f with inl name => name | inr i => lit "f" ++ c_open s ++ show_Z i ++ c_close s ++ lit " " end
                            ++ lit " " ++ c_le s ++ lit " " ++ shown prec v ++ c_break s
              | Output v => lit "output = " ++ shown prec v ++ c_break s
              end in
  let t := c_start s ++ ids ++ count ++ what in
  drop_end (lit "<br/>") (drop_end (lit "\n") t) ++ c_end s.

(** Lines 210-222: get_color.  int(color[-1] * 0.75) is exact. *)
Definition hex_digit (d : Z) : ascii := ascii_of_nat (Z.to_nat (if d <? 10 then 48 + d else 87 + d)).
Definition hex2 (c : Z) : text := [hex_digit (c / 16); hex_digit (c mod 16)].
Definition get_color (f : fill (N:=N)) : text :=
  let '(r, g, b, a) := paint f in lit "#" ++ hex2 r ++ hex2 g ++ hex2 b ++ hex2 (Z.min 255 (a * 3 / 4)).
(** Lines 325-339 and 361-363. *)
Definition fill_text (f : fill (N:=N)) : text :=
  match f with
  | NoFill => []
  | White => lit ", fillcolor=""#ffffffff"""
  | Grey => lit ", fillcolor=""#C0C0C0"""
  | _ => lit ", fillcolor=""" ++ get_color f ++ lit """"
  end.
Definition stop : text := lit " ;" ++ [newline].
(** Lines 320-340. *)
Definition box_text (s : bool) (prec i : Z) (b : box N) : text :=
  show_Z i ++ lit " [label=" ++ node_to_str s prec b ++ fill_text (b_fill b) ++ lit "]" ++ stop.
(** Lines 342-353 and 367-369. *)
Definition arrow_text (p c : Z) (h : option bool) : text :=
  show_Z p ++ lit " -> " ++ show_Z c ++
  match h with
  | None => []
  | Some true => lit " [labeldistance=2.5, labelangle=45, headlabel=""True""]"
  | Some false => lit " [labeldistance=2.5, labelangle=-45, headlabel=""False""]"
  end ++ stop.
(** Lines 359-363; line 365 ends the statement. *)
Definition dots_text (i : Z) (f : fill (N:=N)) : text := show_Z i ++ lit " [label=""(...)""" ++ fill_text f.
(** Lines 466-469. *)
Fixpoint joined_by (sep : text) (l : list text) : text :=
  match l with [] => [] | [x] => x | x :: r => x ++ sep ++ joined_by sep r end.
Definition rank_text (ids : list Z) : text := lit "{rank=same ; " ++ joined_by (lit "; ") (map show_Z ids) ++ lit "}" ++ stop.
Definition item_text (s : bool) (prec : Z) (x : item N) : text :=
  match x with
  | Box i b => box_text s prec i b
  | Dots i f => dots_text i f ++ lit "]" ++ stop
  | Arrow p c h => arrow_text p c h
  | Rank _ ids => rank_text ids
  end.
(** Lines 441-462. *)
Definition header (y : style) (o : options) : text :=
  let filled := o_highlight o || match o_leaves o with Some _ => true | None => false end in
  let looks := (if filled then [lit "filled"] else []) ++ (if y_rounded y then [lit "rounded"] else []) in
  lit "digraph Tree {" ++ [newline] ++ lit "node [shape=box" ++
  match looks with [] => [] | _ => lit ", style=""" ++ joined_by (lit ", ") looks ++ lit """, color=""black""" end ++
  (if y_rounded y then lit ", fontname=helvetica" else []) ++ lit "]" ++ stop ++
  (if o_parallel o then lit "graph [ranksep=equally, splines=polyline]" ++ stop else []) ++
  (if y_rounded y then lit "edge [fontname=helvetica]" ++ stop else []).

(** What has been written, and how it ended. *)
Definition wres (A : Type) : Type := text * res A.
Definition wret {A} (a : A) : wres A := ([], Ok a).
Definition wput (t : text) : wres unit := (t, Ok tt).
Definition wlift {A} (r : res A) : wres A := ([], r).
Definition wbind {A B} (x : wres A) (k : A -> wres B) : wres B :=
  match snd x with Ok a => let y := k a in (fst x ++ fst y, snd y) | Err e => (fst x, Err e) end.
Notation "'wdo' x <- a ; b" := (wbind a (fun x => b)) (at level 200, x pattern, a at level 100, b at level 200).

Section Recurse.
Variables (e : ensemble N) (o : options) (y : style) (tree_id : Z) (counts : list (Z * Z)) (bd : bounds (N:=N)).
(** Lines 301-369 with their writes; a call that fails has written what came before. *)
Fixpoint wrecurse (fuel : nat) (i : Z) (parent : option Z) (depth : Z) : wres (list (option Z * Z)) :=
  match fuel with
  | O => wlift (Err Diverge)
  | S f =>
      wdo bad <- wlift (match parent with Some p => is_leaf_node e p | None => Ok false end);
      if bad then wlift (Err ValueError) else
      if match o_max_depth o with None => true | Some m => depth <=? m end then
        wdo leaf <- wlift (is_leaf_node e i);
        wdo b <- wlift (describe e o counts bd i);
        wdo _ <- wput (box_text (y_special y) (o_precision o) i b);
        wdo _ <- match parent with
                 | None => wret tt
                 | Some p =>
                     wdo _ <- wput (show_Z p ++ lit " -> " ++ show_Z i);
                     wdo root <- wlift (py_get (e_root e) tree_id);
                     wdo _ <- (if root =? p then
                                 wdo _ <- wput (lit " [labeldistance=2.5, labelangle=");
                                 wdo l <- wlift (py_get (e_left e) p);
                                 wput (if l =? i then lit "45, headlabel=""True""]" else lit "-45, headlabel=""False""]")
                               else wret tt);
                     wput stop
                 end;
        if leaf then wret [(None, i)]
        else
          wdo l <- wlift (py_get (e_left e) i);
          wdo a <- wrecurse f l (Some i) (depth + 1);
          wdo r <- wlift (py_get (e_right e) i);
          wdo b <- wrecurse f r (Some i) (depth + 1);
          wret ((Some depth, i) :: a ++ b)
      else
        let grey := match o_leaves o with Some _ => Grey | None => if o_highlight o then Grey else NoFill end in
        wdo _ <- wput (dots_text i grey);
        wdo _ <- wlift (if negb (o_np_mapping o) then Err TypeError else Ok tt);
        wdo _ <- wput (lit "]" ++ stop);
        wdo _ <- match parent with Some p => wput (arrow_text p i None) | None => wret tt end;
        wret [(None, i)]
  end.
End Recurse.

(** Lines 384-439: the checks, the counts and the bounds of the colours. *)
Definition prepare (e : ensemble N) (tree_id : Z) (o : options) : res (list (Z * Z) * bounds (N:=N)) :=
  if o_precision o <? 0 then Err ValueError else
  do _ <- match o_names o with
          | None => Ok tt
          | Some names => do m <- zmax (e_feature e); if m + 1 <? Z.of_nat (length names) then Err ValueError else Ok tt
          end;
  if e_ntrees e - 1 <? tree_id then Err ValueError else
  match o_leaves o with
  | Some rows =>
      do col <- mapM (fun row => py_get row tree_id) rows;
      do root <- py_get (e_root e) tree_id;
      do c <- recursive_count (S (length (e_left e))) e (tally col) root;
      match o_label o with
      | LabelAll => do lo <- zmin (map snd (snd c)); do hi <- zmax (map snd (snd c)); Ok (snd c, CountBounds lo hi)
      | LabelLeaves => do lo <- zmin (map snd (tally col)); do hi <- zmax (map snd (tally col)); Ok (snd c, CountBounds lo hi)
      | LabelOther => Err ValueError
      end
  | None => do b <- value_bounds e tree_id; Ok ([], b)
  end.
(** Lines 372-478 up to the returned value: everything written to out_file. *)
Definition written (e : ensemble N) (tree_id : Z) (o : options) (y : style) : wres unit :=
  wdo cb <- wlift (prepare e tree_id o);
  wdo _ <- wput (header y o);
  wdo root <- wlift (py_get (e_root e) tree_id);
  wdo rk <- wrecurse e o y tree_id (fst cb) (snd cb) (S (length (e_left e))) root None 0;
  wdo _ <- wput (if o_parallel o then concat (map (item_text (y_special y) (o_precision o)) (rank_items (N:=N) rk)) else []);
  wput (lit "}").

(** Lines 372-383 and 471-478: out_file=None returns the text; a name is opened for writing, which
    empties an existing file, before the arguments are checked. *)
Definition export_string (e : ensemble N) (tree_id : Z) (o : options) (y : style) : res text :=
  let w := written e tree_id o y in do _ <- snd w; Ok (fst w).
Definition export_file (before : option text) (e : ensemble N) (tree_id : Z) (o : options) (y : style) : option text * res unit :=
  let w := written e tree_id o y in (Some (fst w), snd w).
End Dot.
