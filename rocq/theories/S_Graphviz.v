(** What the drawing of a tree must show. *)
From Coq Require Import Ascii String List ZArith Bool.
From Verif Require Import Base Num M_Text M_Ensemble S_Ensemble S_Loaders M_Graphviz.
Import ListNotations.
Local Open Scope Z_scope.

Section Spec.
Context {N : num}.
Notation tree := (tree Z N).

(** Depths up to [m] are drawn. *)
Definition within (m : option Z) (depth : Z) : bool := match m with None => true | Some k => depth <=? k end.
(** The nodes drawn as boxes, parents first, and the ones drawn as dots: too deep, below a box. *)
Fixpoint visible (m : option Z) (depth : Z) (t : tree) : list tree :=
  if within m depth then t :: match t with Leaf _ _ => [] | Node _ _ _ l r => visible m (depth + 1) l ++ visible m (depth + 1) r end
  else [].
Fixpoint cut (m : option Z) (depth : Z) (t : tree) : list tree :=
  if within m depth then match t with Leaf _ _ => [] | Node _ _ _ l r => cut m (depth + 1) l ++ cut m (depth + 1) r end
  else [t].
(** The arrows; those from the root to boxes say True on the left and False on the right. *)
Fixpoint links (m : option Z) (depth : Z) (t : tree) : list (Z * Z * option bool) :=
  match t with
  | Leaf _ _ => []
  | Node i _ _ l r =>
      if within m depth then
        let says b := if (depth =? 0) && within m (depth + 1) then Some b else None in
        ((i, mark l, says true) :: links m (depth + 1) l) ++ ((i, mark r, says false) :: links m (depth + 1) r)
      else []
  end.
(** The bottom line, and the boxes with a test at depth [d]. *)
Fixpoint bottom (m : option Z) (depth : Z) (t : tree) : list tree :=
  if within m depth then match t with Leaf _ _ => [t] | Node _ _ _ l r => bottom m (depth + 1) l ++ bottom m (depth + 1) r end
  else [t].
Fixpoint level (m : option Z) (d depth : Z) (t : tree) : list tree :=
  match t with
  | Leaf _ _ => []
  | Node _ _ _ l r =>
      if within m depth then (if depth =? d then [t] else []) ++ level m d (depth + 1) l ++ level m d (depth + 1) r else []
  end.

(** Instances whose leaf lies below a node; leaves and their values. *)
Fixpoint exits (t : tree) : list Z := match t with Leaf i _ => [i] | Node _ _ _ l r => exits l ++ exits r end.
Fixpoint outputs (t : tree) : list N := match t with Leaf _ v => [v] | Node _ _ _ l r => outputs l ++ outputs r end.
Definition arrivals (col : list Z) (t : tree) : Z := Z.of_nat (length (filter (fun j => existsb (Z.eqb j) (exits t)) col)).
Definition is_leaf (t : tree) : bool := match t with Leaf _ _ => true | Node _ _ _ _ _ => false end.
(** The nodes passed by an instance, from the root to its leaf. *)
Fixpoint path (row : list N) (t : tree) : list Z :=
  match t with
  | Leaf i _ => [i]
  | Node i f thr l r => i :: if nleb (nth (Z.to_nat f) row nzero) thr then path row l else path row r
  end.

Definition extremes (l : list Z) (lo hi : Z) : Prop := In lo l /\ In hi l /\ forall x, In x l -> lo <= x <= hi.
(** The bounds of the colours: of all counts, of the counts of the leaves that were reached, or of the
    outputs. *)
Definition bounds_fit (o : options) (col : list Z) (t : tree) (b : bounds (N:=N)) : Prop :=
  match o_leaves o, b with
  | Some _, CountBounds lo hi =>
      incl col (exits t) ->
      extremes (match o_label o with
                | LabelAll => map (arrivals col) (subtrees t)
                | _ => map (arrivals col) (filter (fun s => is_leaf s && (0 <? arrivals col s)) (subtrees t))
                end) lo hi
  | None, ValueBounds lo hi =>
      In lo (outputs t) /\ In hi (outputs t) /\
      ((forall a b : N, nleb a b = true \/ nleb b a = true) -> (forall a b c : N, nleb a b = true -> nleb b c = true -> nleb a c = true) ->
       forall v, In v (outputs t) -> nleb lo v = true /\ nleb v hi = true)
  | _, _ => False
  end.

(** What the box of a node says. *)
Definition counted (o : options) (s : tree) : bool := match o_label o with LabelAll => true | _ => is_leaf s end.
Definition percentage (o : options) (b : bounds (N:=N)) : option Z :=
  if o_proportion o then match b with CountBounds _ hi => Some hi | _ => None end else None.
Definition text_of (o : options) (s : tree) : body N :=
  match s with
  | Leaf _ v => Output v
  | Node _ f thr _ _ => Test (match o_names o with Some names => inl (nth (Z.to_nat f) names []) | None => inr f end) thr
  end.
Definition colour (o : options) (col : list Z) (b : bounds (N:=N)) (s : tree) : fill :=
  match o_leaves o, b, s with
  | Some _, CountBounds lo hi, _ => if counted o s then ByCount (arrivals col s) lo hi else White
  | None, ValueBounds lo hi, Leaf _ v => if o_highlight o then ByValue v lo hi else NoFill
  | _, _, _ => if o_highlight o then White else NoFill
  end.
Definition picture (o : options) (col : list Z) (b : bounds (N:=N)) (s : tree) : box N :=
  mkBox (if o_node_ids o then Some (mark s) else None)
        (match o_leaves o with
         | Some _ => if o_label_show o && counted o s then Some (arrivals col s, percentage o b) else None
         | None => None
         end)
        (text_of o s) (colour o col b s).

(** The parts of a drawing. *)
Definition boxes (l : list (item N)) : list (Z * box N) := flat_map (fun x => match x with Box i b => [(i, b)] | _ => [] end) l.
Definition dots (l : list (item N)) : list Z := flat_map (fun x => match x with Dots i _ => [i] | _ => [] end) l.
Definition arrows (l : list (item N)) : list (Z * Z * option bool) := flat_map (fun x => match x with Arrow p c h => [(p, c, h)] | _ => [] end) l.
Definition ranks (l : list (item N)) : list (option Z * list Z) := flat_map (fun x => match x with Rank k ids => [(k, ids)] | _ => [] end) l.
(** One line for every depth that has tests, one for the bottom. *)
Definition ranks_fit (m : option Z) (t : tree) (l : list (option Z * list Z)) : Prop :=
  NoDup (map fst l) /\
  forall k ids, In (k, ids) l <-> ids <> [] /\ ids = map mark (match k with None => bottom m 0 t | Some d => level m d 0 t end).

(** The number [tid] names the tree at position [k], possibly counted from the end. *)
Definition names_tree (ts : list tree) (tid : Z) (k : nat) : Prop :=
  (k < length ts)%nat /\ (tid = Z.of_nat k \/ tid = Z.of_nat k - Z.of_nat (length ts)).
(** The column of the tree in the matrix of leaves. *)
Definition leaf_column (ts : list tree) (k : nat) (o : options) (col : list Z) : Prop :=
  match o_leaves o with
  | None => True
  | Some rows => Forall2 (fun row j => length row = length ts /\ nth_error row k = Some j) rows col
  end.
(** Acceptable arguments. *)
Definition names_fit (e : ensemble N) (o : options) (t : tree) : Prop :=
  match o_names o with
  | None => True
  | Some names =>
      (exists f, In f (e_feature e) /\ Z.of_nat (length names) <= f + 1) /\
      forall s i f thr l r, In s (visible (o_max_depth o) 0 t) -> s = Node i f thr l r -> 0 <= f < Z.of_nat (length names)
  end.
Definition options_fit (o : options) : Prop :=
  0 <= o_precision o /\
  match o_leaves o, o_label o with
  | Some _, LabelOther => False
  | Some [], LabelLeaves => False
  | _, _ => True
  end.
(** Nothing is cut off. *)
Definition fully_drawn (o : options) (t : tree) : Prop :=
  match o_max_depth o with None => True | Some m => Z.of_nat (height t) <= m end.
End Spec.
