(** Specification: what an iteration does when it runs alone, and which cells it may touch. *)
From Coq Require Import List ZArith.
From Verif Require Import Base Num M_Schedule.
Import ListNotations.

Section Spec.
Context {A V : Type} (eqA : A -> A -> bool).

(** The memory and the result when nobody else runs. *)
Fixpoint alone {R} (p : prog R) (m : A -> V) : (A -> V) * res R :=
  match p with
  | Ret r => (m, Ok r)
  | Fail x => (m, Err x)
  | Load a k => alone (k (m a)) m
  | Store a v k => alone k (fun b => if eqA b a then v else m b)
  end.

(** Whatever the values loaded, the program stores in [own] only and loads from [own] and [read] only. *)
Fixpoint keeps_to {R} (own read : A -> Prop) (p : prog (A:=A) (V:=V) R) : Prop :=
  match p with
  | Ret _ | Fail _ => True
  | Load a k => (own a \/ read a) /\ forall v, keeps_to own read (k v)
  | Store a _ k => own a /\ keeps_to own read k
  end.

(** Iteration [i] owns the cells [own i]; cells without owner may be read by all. *)
Definition disjoint_iterations {R} (own : nat -> A -> Prop) (its : list (prog (A:=A) (V:=V) R)) : Prop :=
  (forall i j a, own i a -> own j a -> i = j) /\
  forall i p, nth_error its i = Some p -> keeps_to (own i) (fun a => forall j, (j < length its)%nat -> ~ own j a) p.

Definition finished {R} (c : (A -> V) * list (prog (A:=A) (V:=V) R)) (m : A -> V) (rs : list R) : Prop :=
  c = (m, map Ret rs).
End Spec.
