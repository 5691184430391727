(** Doubles as sizes: specification. *)
From Coq Require Import List ZArith Reals SpecFloat.
From Verif Require Import Base Num M_IEEE S_IEEE S_IEEE2.
Local Open Scope Z_scope.

(** The decimal fraction c / d as a Python float. *)
Definition ratio (c d : Z) : IEEE64 := ndiv (n:=IEEE64) (nofZ c) (nofZ d).
(** c * n / d lies between two integers at a distance other than a half. *)
Definition no_tie (c d n : Z) : Prop := (2 * c * n) mod (2 * d) <> d.
