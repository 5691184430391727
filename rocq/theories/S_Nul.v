(** Bytes of a data file that the loader does not see: NUL bytes and white space at the end
    of a line. *)
From Coq Require Import Ascii String List ZArith.
From Verif Require Import Base M_Text S_Svmlight.
Import ListNotations.

(** Whole lines. *)
Definition whole_lines (a : text) : Prop := a = [] \/ exists b, a = b ++ [newline].
(** Inside a line. *)
Definition inside (b : text) : Prop := ~ In newline b.
(** What remains of a text when the tail of every line is removed from its first NUL on, and
    everything from the first line that begins with NUL on. *)
Inductive shown : text -> text -> Prop :=
| shown_end : shown [] []
| shown_stop x : shown (nul :: x) []
| shown_last b : inside b -> ~ In nul b -> b <> [] -> shown b b
| shown_last_cut b c : inside b -> ~ In nul b -> b <> [] -> inside c -> shown (b ++ nul :: c) b
| shown_line b r r' : inside b -> ~ In nul b -> shown r r' -> shown (b ++ newline :: r) (b ++ newline :: r')
| shown_cut b c r r' : inside b -> ~ In nul b -> b <> [] -> inside c -> shown r r' ->
    shown (b ++ nul :: c ++ newline :: r) (b ++ newline :: r').
