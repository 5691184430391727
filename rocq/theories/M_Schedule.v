(** Parallel loops whose iterations read some cells and write others.

    An iteration is a program over the shared memory: it loads a cell and goes on with the value,
    stores a value, returns, or fails (an access outside an array).  Loads and stores of single
    cells are atomic; the steps of the iterations interleave in any order.  A reduction variable
    is private to each thread: an iteration returns its term, and the terms are added in any order
    and with any bracketing ([summed]). *)
From Coq Require Import List ZArith Bool Permutation.
From Verif Require Import Base Num M_Dataset M_Ensemble M_Topology M_Feature.
Import ListNotations.
Local Open Scope Z_scope.

Section Programs.
Context {A V : Type} (eqA : A -> A -> bool).

Inductive prog (R : Type) : Type :=
| Ret (r : R)
| Fail (x : exn)
| Load (a : A) (k : V -> prog R)
| Store (a : A) (v : V) (k : prog R).
Arguments Ret {R}. Arguments Fail {R}. Arguments Load {R}. Arguments Store {R}.

Definition lift {X R} (r : res X) (k : X -> prog R) : prog R := match r with Ok x => k x | Err e => Fail e end.
Fixpoint andthen {R S} (p : prog R) (f : R -> prog S) : prog S :=
  match p with
  | Ret r => f r
  | Fail x => Fail x
  | Load a k => Load a (fun v => andthen (k v) f)
  | Store a v k => Store a v (andthen k f)
  end.
Fixpoint repeated {R X} (f : R -> X -> prog R) (l : list X) (r : R) : prog R :=
  match l with [] => Ret r | x :: q => andthen (f r x) (fun r' => repeated f q r') end.

Definition cells : Type := A -> V.
Definition put (m : cells) (a : A) (v : V) : cells := fun b => if eqA b a then v else m b.

(** One atomic step of one iteration. *)
Inductive step {R} : cells * list (prog R) -> cells * list (prog R) -> Prop :=
| step_load m a k p q : step (m, p ++ Load a k :: q) (m, p ++ k (m a) :: q)
| step_store m a v k p q : step (m, p ++ Store a v k :: q) (put m a v, p ++ k :: q).
Inductive steps {R} : cells * list (prog R) -> cells * list (prog R) -> Prop :=
| steps_refl c : steps c c
| steps_next c1 c2 c3 : step c1 c2 -> steps c2 c3 -> steps c1 c3.
End Programs.
Arguments Ret {A V R}. Arguments Fail {A V R}. Arguments Load {A V R}. Arguments Store {A V R}.

(** ** _efficient_topological.pyx *)
(** node_indices_view[i], height_trees[i], row_ind[i], col_ind[i]. *)
Inductive tcell : Type := NodeC (i : Z) | HeightC (i : Z) | RowC (i : Z) | ColC (i : Z).
Definition tcell_eqb (a b : tcell) : bool :=
  match a, b with
  | NodeC i, NodeC j | HeightC i, HeightC j | RowC i, RowC j | ColC i, ColC j => i =? j
  | _, _ => false
  end.
Definition inside (n i : Z) : bool := (0 <=? i) && (i <? n).
Definition get_at {A V R} (n : Z) (c : Z -> A) (i : Z) (k : V -> prog R) : prog (A:=A) R :=
  if inside n i then Load (c i) k else Fail MemFault.
Definition put_at {A V R} (n : Z) (c : Z -> A) (i : Z) (v : V) (k : prog R) : prog (A:=A) R :=
  if inside n i then Store (c i) v k else Fail MemFault.

Section Loops.
Context {N : num}.

(** Lines 86-97: one turn of the loop of _compute_node_indices; returns max_index. *)
Definition index_prog (incl : bool) (e : ensemble N) (mx cur : Z) : prog (A:=tcell) (V:=Z) Z :=
  lift (leaf_cell e cur) (fun leaf =>
  if leaf then
    if incl then Ret mx else put_at (e_nnodes e) NodeC cur 0 (Ret mx)
  else
    get_at (e_nnodes e) NodeC cur (fun v =>
    let lv := u64 (2 * v + 1) in
    let rv := u64 (2 * v + 2) in
    lift (mem_get (e_left e) cur) (fun l =>
    put_at (e_nnodes e) NodeC l lv
    (lift (mem_get (e_right e) cur) (fun r =>
    put_at (e_nnodes e) NodeC r rv
    (Ret (Z.max (Z.max mx lv) rv))))))).

(** Lines 38-47 and 74-100: the iteration for tree [t]. *)
Definition tree_prog (incl : bool) (e : ensemble N) (t : Z) : prog (A:=tcell) (V:=Z) unit :=
  lift (last_node e t) (fun last =>
  lift (mem_get (e_root e) t) (fun root =>
  andthen (repeated (index_prog incl e) (zrange root last) 0) (fun mx =>
  put_at (e_ntrees e) HeightC t (u32 (msb (u64 (mx + 1)))) (Ret tt)))).

(** Lines 66-70: the iteration for the distinct index number [i]. *)
Definition coordinate_prog (data : list Z) (i : Z) : prog (A:=tcell) (V:=Z) unit :=
  let n := Z.of_nat (length data) in
  lift (mem_get data i) (fun x =>
  put_at n RowC i (msb (u64 (x + 1)))
  (get_at n RowC i (fun row =>
  put_at n ColC i (u64 (u64 (x + 1) - u64 (2 ^ row))) (Ret tt)))).

(** ** _efficient_feature_impl.cpp *)
(** y_target[i], y_pred_tree[i], y_pred[i], feature_imp[i]. *)
Inductive fcell : Type := TargetC (i : Z) | PredTreeC (i : Z) | PredC (i : Z) | ImpC (i : Z).
Definition fcell_eqb (a b : fcell) : bool :=
  match a, b with
  | TargetC i, TargetC j | PredTreeC i, PredTreeC j | PredC i, PredC j | ImpC i, ImpC j => i =? j
  | _, _ => false
  end.
Definition fprog (R : Type) : Type := prog (A:=fcell) (V:=N) R.

(** Lines 23-26. *)
Definition zero_prog (nf i : Z) : fprog unit := put_at nf ImpC i nzero (Ret tt).
(** Lines 75-80; the term of mean_y_target.  The vector split_instance is left out. *)
Definition residual_prog (y : list N) (n i : Z) : fprog N :=
  lift (mem_get y i) (fun a =>
  get_at n PredC i (fun b =>
  put_at n TargetC i (nf32 (nsub a b))
  (get_at n TargetC i (fun t => Ret t)))).
(** Lines 85-87. *)
Definition fill_prog (mean : N) (n i : Z) : fprog unit := put_at n PredTreeC i mean (Ret tt).
(** Lines 131-146; the term of delta_mse.  y_target is only read. *)
Definition gain_prog (si : list Z) (yt : list N) (n end_ : Z) (ml mr : N) (i : Z) : fprog N :=
  lift (mem_get si i) (fun inst =>
  lift (mem_get yt inst) (fun v =>
  get_at n PredTreeC inst (fun p =>
  let pre := sq_err v p in
  put_at n PredTreeC inst (if i <=? u32 end_ then ml else mr)
  (get_at n PredTreeC inst (fun p' =>
  Ret (nf32 (nsub pre (sq_err v p')))))))).
(** Lines 169-173. *)
Definition update_prog (w : N) (n i : Z) : fprog unit :=
  get_at n PredTreeC i (fun a =>
  put_at n PredTreeC i (nf32 (nmul a w))
  (get_at n PredC i (fun b =>
  get_at n PredTreeC i (fun c =>
  put_at n PredC i (nf32 (nadd b c)) (Ret tt))))).

(** A float reduction: the private copies start at zero. *)
Inductive summed : list N -> N -> Prop :=
| summed_nil : summed [] nzero
| summed_one x : summed [x] x
| summed_add l1 l2 a b : summed l1 a -> summed l2 b -> summed (l1 ++ l2) (nf32 (nadd a b))
| summed_perm l l' a : Permutation l l' -> summed l a -> summed l' a.
End Loops.
