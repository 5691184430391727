(** Property C100: NUL bytes and trailing white space in data files. *)
From Coq Require Import Ascii String List ZArith QArith Lia Bool.
From Verif Require Import Base M_Text M_Svmlight S_Svmlight M_Dataset S_Nul L_Nul T_Svmlight.
Import ListNotations.
Local Open Scope Z_scope.

Theorem C100_nul_hides : forall (V : Type) (F : fmt V) f g, shown f g ->
  load_svmlight_file F f = load_svmlight_file F g /\ ds_load F f = ds_load F g.
Proof. exact (@C100_shown_lemma). Qed.
Print Assumptions C100_nul_hides.
Theorem C100_every_file : forall f, exists g, shown f g /\ ~ In nul g.
Proof. exact (@shown_total). Qed.
Print Assumptions C100_every_file.
Theorem C100_trailing_blanks : forall (V : Type) (F : fmt V) a b w r, whole_lines a -> inside b -> b <> [] -> inside w -> blanks w ->
  load_svmlight_file F (a ++ b ++ w ++ newline :: r) = load_svmlight_file F (a ++ b ++ newline :: r).
Proof. exact (@C100_trailing_lemma). Qed.
Print Assumptions C100_trailing_blanks.
Theorem C100_last_newline : forall (V : Type) (F : fmt V) a b, whole_lines a -> inside b -> b <> [] ->
  load_svmlight_file F (a ++ b ++ [newline]) = load_svmlight_file F (a ++ b).
Proof. exact (@C100_last_newline_lemma). Qed.
Print Assumptions C100_last_newline.

(** The last pair of the first line is hidden; the third and the fourth line are too. *)
Definition l1 : text := lit "2 qid:7 1:1 ".
Definition l2 : text := lit "1 qid:7 1:5" ++ [ascii_of_nat 13].
Definition hidden : text := l1 ++ nul :: lit "2:3" ++ newline :: l2 ++ newline :: nul :: newline :: lit "0 qid:8 1:1".
Example C100_example : shown hidden (l1 ++ newline :: l2 ++ [newline]) /\
  load_svmlight_file QF hidden = Ok (1%nat, [[1]; [5]]%Q, [2; 1]%Q, [7; 7]).
Proof.
  assert (Hb : forall b, forallb (fun c => negb (Ascii.eqb c newline || Ascii.eqb c nul)) b = true -> inside b /\ ~ In nul b).
  { intros b H. rewrite forallb_forall in H. split; intros Hin; apply H in Hin; vm_compute in Hin; discriminate. }
  split; [|vm_compute; reflexivity]. unfold hidden.
  apply shown_cut; [apply Hb; reflexivity|apply Hb; reflexivity|discriminate|apply Hb; reflexivity|].
  apply shown_line; [apply Hb; reflexivity|apply Hb; reflexivity|]. apply shown_stop.
Qed.
Example C100_blanks_example : load_svmlight_file QF (l1 ++ newline :: l2 ++ [newline]) = load_svmlight_file QF (lit "2 qid:7 1:1" ++ newline :: lit "1 qid:7 1:5").
Proof. vm_compute. reflexivity. Qed.
(** A blank line, in contrast, is an error. *)
Theorem C100_blank_line_refuted : exists a b w r, whole_lines a /\ inside b /\ inside w /\ blanks w /\
  load_svmlight_file QF (a ++ b ++ w ++ newline :: r) = Err RuntimeError /\ exists p, load_svmlight_file QF (a ++ b ++ r) = Ok p.
Proof.
  exists (l1 ++ [newline]), [], [], []. split; [right; exists l1; reflexivity|]. split; [intros []|]. split; [intros []|]. split; [constructor|].
  split; [vm_compute; reflexivity|eexists; vm_compute; reflexivity].
Qed.
