(** Proofs about the names of metrics. *)
From Coq Require Import Ascii String List ZArith Bool Lia.
From Verif Require Import Base Num M_Dataset M_Metrics M_Text S_Svmlight S_Loaders L_Loaders M_Loaders M_TextLoaders M_Names S_Names.
Import ListNotations.
Local Open Scope Z_scope.

Lemma show_Z_inj : forall a b, show_Z a = show_Z b -> a = b.
Proof.
  intros a b H. pose proof (py_int_dec (show_Z a) (show_Z a) a (padded_refl _) (show_Z_dec a)) as A.
  pose proof (py_int_dec (show_Z b) (show_Z b) b (padded_refl _) (show_Z_dec b)) as B. rewrite H in A. congruence.
Qed.
Lemma show_Z_simple : forall n, simple (show_Z n).
Proof.
  intros n. destruct (show_Z_dec n) as (sg & neg & ds & -> & S & D & _). unfold digits in D. rewrite Forall_forall in D.
  split; intros I; apply in_app_or in I; (destruct I as [I|I]; [inversion S; subst; cbn in I; intuition discriminate|]); apply D in I; cbn in I; intuition discriminate.
Qed.
(** Texts are cut at the first of the two characters. *)
Lemma cut_unique : forall (p : ascii -> Prop) (a b x y : text), (forall c, In c a -> ~ p c) -> (forall c, In c b -> ~ p c) ->
  (x = [] \/ exists c r, x = c :: r /\ p c) -> (y = [] \/ exists c r, y = c :: r /\ p c) -> a ++ x = b ++ y -> a = b /\ x = y.
Proof.
  intros p. induction a as [|c a IH]; intros [|d b] x y Ha Hb Hx Hy E; cbn [app] in E.
  - split; [reflexivity|exact E].
  - exfalso. destruct Hx as [->|(c & r & -> & P)]; [discriminate|]. injection E as -> _. exact (Hb d (or_introl eq_refl) P).
  - exfalso. destruct Hy as [->|(e & r & -> & P)]; [discriminate|]. injection E as -> _. exact (Ha e (or_introl eq_refl) P).
  - injection E as -> E. destruct (IH b x y) as [-> ->]; auto. { intros e He. apply Ha. right. exact He. } { intros e He. apply Hb. right. exact He. }
Qed.

Section Names.
Context {N : num}.
Variable shown : N -> text.
Hypothesis shown_inj : forall a b, shown a = shown b -> a = b.
Notation any := (@any_metric N).
Definition tail_of (k : option Z) (t : option N) : text := at_cutoff k ++ match t with Some t => lit "[>" ++ shown t ++ lit "]" | None => [] end.
Lemma str_tail : forall name (m : any), str_of shown name m = name ++ tail_of (cutoff_of m) (threshold_of m).
Proof.
  intros name m. unfold tail_of. destruct m as [m|k| |]; [destruct m| | |]; cbn [str_of cutoff_of threshold_of at_cutoff app]; unfold above; try destruct (neqb thr none); rewrite ?app_nil_r; reflexivity.
Qed.
Definition mark_char (c : ascii) : Prop := c = "@"%char \/ c = "["%char.
Lemma simple_marks : forall t, simple t -> forall c, In c t -> ~ mark_char c.
Proof. intros t [A B] c I [->| ->]; contradiction. Qed.
Lemma tail_marks : forall k t, tail_of k t = [] \/ exists c r, tail_of k t = c :: r /\ mark_char c.
Proof. intros [k|] [t|]; cbn [tail_of at_cutoff app]; [right|right|right|left; reflexivity]; eexists; eexists; (split; [reflexivity|]); unfold mark_char; auto. Qed.
Lemma threshold_marks : forall t : option N, (match t with Some t => lit "[>" ++ shown t ++ lit "]" | None => [] end) = [] \/ exists c r, (match t with Some t => lit "[>" ++ shown t ++ lit "]" | None => [] end) = c :: r /\ mark_char c.
Proof. intros [t|]; [right; eexists; eexists; split; [reflexivity|right; reflexivity]|left; reflexivity]. Qed.
Lemma threshold_inj : forall t t' : option N, (match t with Some t => lit "[>" ++ shown t ++ lit "]" | None => [] end) = (match t' with Some t => lit "[>" ++ shown t ++ lit "]" | None => [] end) -> t = t'.
Proof.
  intros [t|] [t'|] H; try discriminate; [|reflexivity]. apply app_inv_head, app_inv_tail, shown_inj in H. congruence.
Qed.
Lemma tail_inj : forall k t k' t', tail_of k t = tail_of k' t' -> k = k' /\ t = t'.
Proof.
  intros k t k' t' H. unfold tail_of in H. destruct k as [k|], k' as [k'|]; cbn [at_cutoff] in H.
  - rewrite <- !app_assoc in H. apply app_inv_head in H. apply (cut_unique mark_char) in H; [|apply simple_marks, show_Z_simple|apply simple_marks, show_Z_simple|apply threshold_marks|apply threshold_marks].
    destruct H as [H1 H2]. apply show_Z_inj in H1. apply threshold_inj in H2. subst. auto.
  - exfalso. destruct t'; discriminate.
  - exfalso. destruct t; discriminate.
  - apply threshold_inj in H. auto.
Qed.
Lemma names_lemma : forall n n' (m m' : any), simple n -> simple n' ->
  (str_of shown n m = str_of shown n' m' <-> n = n' /\ cutoff_of m = cutoff_of m' /\ threshold_of m = threshold_of m').
Proof.
  intros n n' m m' S S'. rewrite !str_tail. split.
  - intros H. apply (cut_unique mark_char) in H; [|apply simple_marks; exact S|apply simple_marks; exact S'|apply tail_marks|apply tail_marks]. destruct H as [-> H]. apply tail_inj in H. tauto.
  - intros (-> & -> & ->). reflexivity.
Qed.
Lemma default_simple : forall m : any, simple (default_name m).
Proof. intros m. split; intros I; destruct m as [m|k| |]; [destruct m| | | |destruct m| | |]; cbn in I; intuition discriminate. Qed.
Lemma default_alike : forall m m' : any, default_name m = default_name m' <-> alike m m'.
Proof.
  intros m m'. destruct m as [m|k| |], m' as [m'|k'| |]; try destruct m; try destruct m'; cbn [default_name alike]; split; intros H; try exact I; try reflexivity; try contradiction; discriminate.
Qed.
End Names.
