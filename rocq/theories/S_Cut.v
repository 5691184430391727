(** Data files of which only the beginning was written: specification. *)
From Coq Require Import Ascii String List ZArith Bool.
From Verif Require Import Base M_Text M_Svmlight.
Import ListNotations.
Local Open Scope Z_scope.

Definition begins {A} (p t : list A) : Prop := exists r, t = p ++ r.
Definition newlines (t : text) : nat := length (filter (Ascii.eqb newline) t).

(** What may be read in place of a row, [w] columns wide: some first cells, possibly one value read
    from the beginning of the text of the next cell, then zeros. *)
Definition cut_cells {V} (F : fmt V) (w : nat) (row cells : list V) : Prop :=
  exists j, (j <= length row)%nat /\
    (cells = firstn j row ++ repeat (vzero F) (w - j) \/
     exists v t n, nth_error row j = Some v /\ begins t (show F v) /\ scan_double t = Some n /\
       cells = firstn j row ++ [rd_value F n] ++ repeat (vzero F) (w - S j)).
(** The query id that was read: the one written or, before any cell, a number read from the
    beginning of its text. *)
Definition cut_id {V} (F : fmt V) (w : nat) (q q' : Z) (cells : list V) : Prop :=
  q' = q \/ cells = repeat (vzero F) w /\ exists t, begins t (show_Z q) /\ scan_uint t = Some (q', []).
