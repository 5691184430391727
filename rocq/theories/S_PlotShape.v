(** The picture of the average tree shape. *)
From Coq Require Import List ZArith Bool.
From Verif Require Import Base Num.
Import ListNotations.
Local Open Scope Z_scope.

(** The half circle is cut in [m] equal sectors.  Sector [i] lies in the arc of node [c] when the
    level has [k] nodes of equal arcs: c/k <= i/m and (i+1)/m <= (c+1)/k. *)
Definition in_arc (m k c i : Z) : Prop := c * m <= i * k /\ (i + 1) * k <= (c + 1) * m.
(** The colour of a sector of a ring. *)
Definition colour {N : num} (z : list (list N)) (i l : Z) : N := nth (Z.to_nat l) (nth (Z.to_nat i) z []) nzero.
