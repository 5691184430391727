(** Names of files, without indices. *)
From Coq Require Import Ascii String List ZArith.
From Verif Require Import Base M_Text M_Svmlight M_Files.
Import ListNotations.

(** A path whose last component is something that is not only dots, then [suffix]. *)
Definition named (suffix p : text) : Prop :=
  exists d b c, p = d ++ b ++ suffix /\ (d = [] \/ exists d', d = d' ++ lit "/") /\
    ~ In "/"%char b /\ In c b /\ c <> "."%char.
(** Worlds with the same files, streams and writings, except for one file or stream. *)
Definition same_but_file (p : text) (w w' : world) : Prop :=
  (forall q, q <> p -> files w' q = files w q) /\ (forall h, unread w' h = unread w h) /\ (forall h, written w' h = written w h).
Definition same_but_stream (k : nat) (w w' : world) : Prop :=
  (forall q, files w' q = files w q) /\ (forall h, h <> k -> unread w' h = unread w h /\ written w' h = written w h).
