(** Parallel loops (Cython prange / OpenMP) over shared memory.

    An iteration is a sequence of updates [a := f (old a)], each executed as two atomic
    steps (load and compute, then store); the steps of different iterations interleave
    in any order.  This covers any number of threads and any assignment of iterations to
    threads (OpenMP runs the iterations of one thread one after the other, which is one
    of the interleavings). *)
From Coq Require Import List ZArith Bool.
Import ListNotations.
Set Implicit Arguments.

Section Parallel.
Context {A V : Type} (eqA : A -> A -> bool).

Definition memory : Type := A -> V.
Definition store (m : memory) (a : A) (v : V) : memory := fun b => if eqA b a then v else m b.

Record op : Type := mkOp { op_addr : A; op_fun : V -> V }.

(** An iteration in progress: the value loaded by its first pending operation, if any,
    and the pending operations. *)
Definition thread : Type := (option V * list op)%type.

(** One atomic step of iteration [k]. *)
Inductive step : memory * list thread -> memory * list thread -> Prop :=
| step_load m a b o r :
    step (m, a ++ (None, o :: r) :: b) (m, a ++ (Some (op_fun o (m (op_addr o))), o :: r) :: b)
| step_store m a b v o r :
    step (m, a ++ (Some v, o :: r) :: b) (store m (op_addr o) v, a ++ (None, r) :: b).

Inductive steps : nat -> memory * list thread -> memory * list thread -> Prop :=
| steps_refl c : steps 0 c c
| steps_next n c1 c2 c3 : step c1 c2 -> steps n c2 c3 -> steps (S n) c1 c3.

(** Start and end of the loop. *)
Definition start (its : list (list op)) : list thread := map (fun ops => (None, ops)) its.
Definition finished (ts : list thread) : Prop := Forall (fun t => t = (None, [])) ts.

(** The sequential loop. *)
Definition exec_op (m : memory) (o : op) : memory := store m (op_addr o) (op_fun o (m (op_addr o))).
Definition exec (m : memory) (ops : list op) : memory := fold_left exec_op ops m.
Definition exec_all (m : memory) (its : list (list op)) : memory := fold_left exec its m.
End Parallel.

(** ** The two loops of _efficient_scoring.pyx *)
From Verif Require Import Base Num M_Dataset M_Ensemble.
Local Open Scope Z_scope.

Section Loops.
Context {N : num}.

(** Lines 48-63: iteration [i] of basic_scoring; the only shared cells are y[i].  The leaf
    and the product are computed from read-only arrays. *)
Definition basic_iteration (e : ensemble N) (i : nat) (row : list N) : res (list (@op nat N)) :=
  mapM (fun t => do leaf <- exit_node e row t;
                 do s <- leaf_score e t leaf;
                 Ok (mkOp i (fun y => nf32 (nadd y s))))
       (zrange 0 (e_ntrees e)).
Definition basic_loop (e : ensemble N) (X : list (list N)) : res (list (list (@op nat N))) :=
  mapM (fun p => basic_iteration e (fst p) (snd p)) (combine (seq 0 (length X)) X).

(** Lines 87-103: iteration [t] of detailed_scoring writes y_leaves[i, t] and
    partial_y[i, t] for all instances [i]. *)
Inductive cell : Type := CLeaf (l : Z) | CScore (s : N).
Definition addr : Type := (bool * (nat * Z))%type.   (* true: y_leaves, false: partial_y *)
Definition addr_eqb (a b : addr) : bool :=
  Bool.eqb (fst a) (fst b) && Nat.eqb (fst (snd a)) (fst (snd b)) && (snd (snd a) =? snd (snd b)).
Definition detailed_iteration (e : ensemble N) (X : list (list N)) (t : Z) : res (list (@op addr cell)) :=
  do ops <- mapM (fun p => do leaf <- exit_node e (snd p) t;
                           do s <- leaf_score e t leaf;
                           Ok [mkOp (true, (fst p, t)) (fun _ => CLeaf leaf);
                               mkOp (false, (fst p, t)) (fun _ => CScore s)])
                 (combine (seq 0 (length X)) X);
  Ok (concat ops).
Definition detailed_loop (e : ensemble N) (X : list (list N)) : res (list (list (@op addr cell))) :=
  mapM (detailed_iteration e X) (zrange 0 (e_ntrees e)).

(** The arrays before the loops (np.zeros) and after them, read back row by row. *)
Definition basic_start : nat -> N := fun _ => nzero.
Definition detailed_start : addr -> cell := fun a => if fst a then CLeaf 0 else CScore nzero.
Definition basic_result (X : list (list N)) (m : nat -> N) : list N := map m (seq 0 (length X)).
Definition read_leaf (c : cell) : Z := match c with CLeaf l => l | CScore _ => 0 end.
Definition read_score (c : cell) : N := match c with CScore s => s | CLeaf _ => nzero end.
Definition detailed_result (e : ensemble N) (X : list (list N)) (m : addr -> cell)
  : list (list Z) * list (list N) :=
  (map (fun i => map (fun t => read_leaf (m (true, (i, t)))) (zrange 0 (e_ntrees e))) (seq 0 (length X)),
   map (fun i => map (fun t => read_score (m (false, (i, t)))) (zrange 0 (e_ntrees e))) (seq 0 (length X))).
End Loops.
