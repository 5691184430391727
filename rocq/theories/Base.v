(** Shared vocabulary of the model: outcomes, Python/NumPy indexing and slicing.
    Nothing here is specific to rankeval. *)
From Coq Require Import List ZArith Lia Bool Permutation Sorted.
Import ListNotations.
Set Implicit Arguments.

(** Python exception classes (plus two markers) that the modelled code can raise.
    [MemFault]: an unchecked (Cython boundscheck=False / C++) access outside an array.
    [Diverge]: the fuel given to an unbounded loop ran out. *)
Inductive exn : Type :=
| IndexError | ZeroDivisionError | ValueError | TypeError | AttributeError
| NameError | LookupError | RuntimeError | AssertionError | KeyError
| IOError | PlainException | UnboundLocalError | MemFault | Diverge.

(** Outcome of a call: a value or an exception. *)
Inductive res (A : Type) : Type :=
| Ok (a : A)
| Err (e : exn).
Arguments Ok {A} a.
Arguments Err {A} e.

Definition bind {A B : Type} (m : res A) (f : A -> res B) : res B :=
  match m with Ok a => f a | Err e => Err e end.

Notation "'do' x <- m ; k" := (bind m (fun x => k))
  (at level 200, x pattern, m at level 100, k at level 200, right associativity).

Definition is_ok {A} (m : res A) : bool := match m with Ok _ => true | Err _ => false end.

(** Sequential traversal that stops at the first exception. *)
Fixpoint mapM {A B} (f : A -> res B) (l : list A) : res (list B) :=
  match l with
  | [] => Ok []
  | x :: xs => do y <- f x; do ys <- mapM f xs; Ok (y :: ys)
  end.

Fixpoint foldM {A B} (f : B -> A -> res B) (l : list A) (b : B) : res B :=
  match l with
  | [] => Ok b
  | x :: xs => do b' <- f b x; foldM f xs b'
  end.

Definition of_option {A} (e : exn) (o : option A) : res A :=
  match o with Some a => Ok a | None => Err e end.

(** Access with a signed index and no wrap-around: [None] when out of bounds. *)
Definition zget {A} (l : list A) (i : Z) : option A :=
  if (i <? 0)%Z then None else nth_error l (Z.to_nat i).

(** Python / NumPy scalar indexing [l[i]]: negative indices count from the end. *)
Definition py_get {A} (l : list A) (i : Z) : res A :=
  let n := Z.of_nat (length l) in
  let j := if (i <? 0)%Z then (i + n)%Z else i in
  of_option IndexError (zget l j).

(** Functional array update; out of bounds leaves the list unchanged. *)
Fixpoint upd {A} (l : list A) (i : nat) (v : A) : list A :=
  match l, i with
  | [], _ => []
  | _ :: xs, O => v :: xs
  | x :: xs, S i' => x :: upd xs i' v
  end.

(** Python / NumPy scalar assignment [l[i] = v]. *)
Definition py_set {A} (l : list A) (i : Z) (v : A) : res (list A) :=
  let n := Z.of_nat (length l) in
  let j := if (i <? 0)%Z then (i + n)%Z else i in
  if ((j <? 0) || (n <=? j))%Z then Err IndexError else Ok (upd l (Z.to_nat j) v).

(** Assignment without bounds check nor wrap-around (Cython wraparound=False, C++). *)
Definition mem_set {A} (l : list A) (i : Z) (v : A) : res (list A) :=
  if ((i <? 0) || (Z.of_nat (length l) <=? i))%Z then Err MemFault
  else Ok (upd l (Z.to_nat i) v).
Definition mem_get {A} (l : list A) (i : Z) : res A := of_option MemFault (zget l i).

(** Python slice bound: negative bounds count from the end, then clip to [0, n]. *)
Definition slice_bound (n : nat) (k : Z) : nat :=
  let k' := if (k <? 0)%Z then (k + Z.of_nat n)%Z else k in
  Nat.min n (Z.to_nat k').

(** [l[:k]], [l[k:]] and [l[a:b]]. *)
Definition slice_to {A} (k : Z) (l : list A) : list A := firstn (slice_bound (length l) k) l.
Definition slice_from {A} (k : Z) (l : list A) : list A := skipn (slice_bound (length l) k) l.
Definition slice {A} (a b : Z) (l : list A) : list A :=
  let lo := slice_bound (length l) a in
  let hi := slice_bound (length l) b in
  firstn (hi - lo) (skipn lo l).

(** [np.arange(a, b)] over integers. *)
Definition zrange (a b : Z) : list Z :=
  map (fun i => (a + Z.of_nat i)%Z) (seq 0 (Z.to_nat (b - a))).

(** Boolean mask selection [arr[mask]]. *)
Fixpoint mask_select {A} (m : list bool) (l : list A) : list A :=
  match m, l with
  | b :: m', x :: l' => if b then x :: mask_select m' l' else mask_select m' l'
  | _, _ => []
  end.

(** [np.in1d(a, b)] on integers. *)
Definition in1d (a b : list Z) : list bool := map (fun x => existsb (Z.eqb x) b) a.

(** Insertion sort, used as an executable sorting algorithm. *)
Section ISort.
  Context {A : Type} (leb : A -> A -> bool).
  Fixpoint insert (x : A) (l : list A) : list A :=
    match l with
    | [] => [x]
    | y :: ys => if leb x y then x :: l else y :: insert x ys
    end.
  Fixpoint isort (l : list A) : list A :=
    match l with [] => [] | x :: xs => insert x (isort xs) end.
End ISort.

(** Integer wrap-around of C's fixed width types. *)
Definition wrap_u (bits : Z) (x : Z) : Z := (x mod 2 ^ bits)%Z.
Definition wrap_s (bits : Z) (x : Z) : Z :=
  let m := (x mod 2 ^ bits)%Z in
  if (m <? 2 ^ (bits - 1))%Z then m else (m - 2 ^ bits)%Z.
Definition u32 := wrap_u 32.
Definition i32 := wrap_s 32.
Definition u64 := wrap_u 64.
Definition i64 := wrap_s 64.
