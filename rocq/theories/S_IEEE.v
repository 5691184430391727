(** Signed ranks and values of IEEE 754 formats. *)
From Coq Require Import List ZArith Bool SpecFloat.
From Verif Require Import Base M_Float M_IEEE S_Ensemble.
Import ListNotations.
Local Open Scope Z_scope.

(** A float32 of [M_Float], infinities and NaN included. *)
Definition ieee_f32 (v : f32) : spec_float :=
  match v with Fin neg k => bits32 neg k | FInf neg => S754_infinity neg | FNaN => S754_nan end.

(** The same number: equal, or two zeros. *)
Definition same_number (x y : spec_float) : Prop :=
  x = y \/ match x, y with S754_zero _, S754_zero _ => True | _, _ => False end.

(** The finite float32 [x] is the number of signed rank [k]. *)
Definition stands (x : spec_float) (k : Z) : Prop :=
  exists neg j, 0 <= j < 255 * 2 ^ 23 /\ x = bits32 neg j /\ k = if neg then - j else j.
(** [x] is the result of signed rank [k], infinite if that is too large. *)
Definition result_of (x : spec_float) (k : Z) : Prop :=
  if Z.abs k <? 255 * 2 ^ 23 then stands x k else x = S754_infinity (k <? 0).

(** Finite values of the format. *)
Definition finite_value (prec emax : Z) (x : spec_float) : Prop :=
  valid_binary prec emax x = true /\ match x with S754_zero _ | S754_finite _ _ _ => True | _ => False end.

(** Trees with other values at their nodes. *)
Fixpoint matching {V W} (R : V -> W -> Prop) (t : tree Z V) (u : tree Z W) : Prop :=
  match t, u with
  | Leaf i v, Leaf j w => i = j /\ R v w
  | Node i f x l r, Node j g y l' r' => i = j /\ f = g /\ R x y /\ matching R l l' /\ matching R r r'
  | _, _ => False
  end.
