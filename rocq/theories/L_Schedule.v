(** Proofs: iterations that keep to their own cells commute. *)
From Coq Require Import List ZArith Bool Lia Arith.
From Verif Require Import Base Num Lists M_Schedule S_Schedule.
Import ListNotations.

Section General.
Context {A V : Type} (eqA : A -> A -> bool) (eqA_ok : forall a b, eqA a b = true <-> a = b).
Context {R : Type}.
Implicit Types (p : prog (A:=A) (V:=V) R) (m : A -> V) (c : (A -> V) * list (prog (A:=A) (V:=V) R)) (its : list (prog (A:=A) (V:=V) R)).

Lemma put_same m a v : put eqA m a v a = v.
Proof. unfold put. destruct (eqA a a) eqn:E; [reflexivity|]. exfalso. assert (eqA a a = true) by (apply eqA_ok; reflexivity). congruence. Qed.
Lemma put_other m a v b : b <> a -> put eqA m a v b = m b.
Proof. intro H. unfold put. destruct (eqA b a) eqn:E; [|reflexivity]. apply eqA_ok in E. contradiction. Qed.

(** Running alone depends on the footprint only, and changes the owned cells only. *)
Lemma alone_agree (own read : A -> Prop) p : forall m m', keeps_to own read p ->
  (forall a, own a \/ read a -> m a = m' a) ->
  snd (alone eqA p m) = snd (alone eqA p m') /\ (forall a, own a \/ read a -> fst (alone eqA p m) a = fst (alone eqA p m') a).
Proof.
  induction p as [r|x|a k IH|a v k IH]; intros m m' K H; cbn [alone snd fst].
  - auto.
  - auto.
  - destruct K as [Ka K]. rewrite <- (H a Ka). apply IH; [apply K|exact H].
  - destruct K as [Ka K]. apply IH; [exact K|]. intros b Hb. destruct (eqA b a); [reflexivity|apply H; exact Hb].
Qed.
Lemma alone_frame (own read : A -> Prop) p : forall m, keeps_to own read p -> forall a, ~ own a -> fst (alone eqA p m) a = m a.
Proof.
  induction p as [r|x|a k IH|a v k IH]; intros m K b Hb; cbn [alone fst]; try reflexivity.
  - destruct K as [Ka K]. apply (IH (m a)); [apply K|exact Hb].
  - destruct K as [Ka K]. rewrite IH by assumption. destruct (eqA b a) eqn:E; [|reflexivity].
    apply eqA_ok in E. subst b. contradiction.
Qed.

(** The cells after the loop: those of iteration [i] as it leaves them when run alone, the others unchanged. *)
Definition outcome (own : nat -> A -> Prop) (c : (A -> V) * list (prog (A:=A) (V:=V) R)) (m : A -> V) (rs : list (res R)) : Prop :=
  (forall i p a, nth_error (snd c) i = Some p -> own i a -> m a = fst (alone eqA p (fst c)) a) /\
  (forall a, (forall i, (i < length (snd c))%nat -> ~ own i a) -> m a = fst c a) /\
  rs = map (fun p => snd (alone eqA p (fst c))) (snd c).

Lemma nth_mid {X} (l : list X) x r i : nth_error (l ++ x :: r) i = if (i =? length l)%nat then Some x else nth_error (l ++ x :: r) i.
Proof. destruct (Nat.eqb_spec i (length l)) as [->|]; [rewrite nth_error_app2, Nat.sub_diag by lia; reflexivity|reflexivity]. Qed.
Lemma nth_mid_other {X} (l : list X) x y r i : i <> length l -> nth_error (l ++ x :: r) i = nth_error (l ++ y :: r) i.
Proof.
  intro H. destruct (Nat.lt_ge_cases i (length l)).
  - rewrite !nth_error_app1 by lia. reflexivity.
  - rewrite !nth_error_app2 by lia. destruct (i - length l)%nat eqn:E; [lia|reflexivity].
Qed.
Lemma nth_mid_here {X} (l : list X) x r : nth_error (l ++ x :: r) (length l) = Some x.
Proof. rewrite nth_error_app2, Nat.sub_diag by lia. reflexivity. Qed.

(** One step: still disjoint, same outcome. *)
Lemma step_keeps own c c' : disjoint_iterations own (snd c) -> step eqA c c' -> disjoint_iterations own (snd c').
Proof.
  intros [D K] H. split; [exact D|]. destruct H as [m a k p q|m a v k p q]; cbn [snd] in *; intros i x Hx;
    rewrite app_length in *; cbn [length] in *.
  - destruct (Nat.eq_dec i (length p)) as [->|Hi].
    + rewrite nth_mid_here in Hx. injection Hx as <-. pose proof (K (length p) _ (nth_mid_here _ _ _)) as K1. apply (proj2 K1).
    + rewrite (nth_mid_other p _ (Load a k)) in Hx by exact Hi. exact (K i x Hx).
  - destruct (Nat.eq_dec i (length p)) as [->|Hi].
    + rewrite nth_mid_here in Hx. injection Hx as <-. pose proof (K (length p) _ (nth_mid_here _ _ _)) as K1. apply (proj2 K1).
    + rewrite (nth_mid_other p _ (Store a v k)) in Hx by exact Hi. exact (K i x Hx).
Qed.

Lemma step_others own m a v (ts : list (prog (A:=A) (V:=V) R)) i j p : disjoint_iterations own ts -> (i < length ts)%nat -> own i a -> i <> j ->
  nth_error ts j = Some p ->
  snd (alone eqA p m) = snd (alone eqA p (put eqA m a v)) /\
  forall b, own j b -> fst (alone eqA p m) b = fst (alone eqA p (put eqA m a v)) b.
Proof.
  intros [D K] Hi Ha Hij Hp. pose proof (K j p Hp) as Kp.
  destruct (alone_agree _ _ p m (put eqA m a v) Kp) as [E1 E2].
  - intros b [Hb|Hb]; rewrite put_other; try reflexivity; intros ->.
    + exact (Hij (D i j a Ha Hb)).
    + exact (Hb i Hi Ha).
  - split; [exact E1|]. intros b Hb. apply E2. left. exact Hb.
Qed.

Lemma map_mid {X Y} (f : X -> Y) g l x y r : f x = g y -> (forall i z, i <> length l -> nth_error (l ++ x :: r) i = Some z -> f z = g z) ->
  map f (l ++ x :: r) = map g (l ++ y :: r).
Proof.
  intros Hxy H. rewrite !map_app. cbn [map]. f_equal; [|f_equal; [exact Hxy|]].
  - apply map_ext_in. intros z Hz. apply In_nth_error in Hz as [i Hi].
    assert (i < length l)%nat by (apply nth_error_Some; congruence). apply (H i); [lia|]. rewrite nth_error_app1 by lia. exact Hi.
  - apply map_ext_in. intros z Hz. apply In_nth_error in Hz as [i Hi]. apply (H (length l + S i)%nat); [lia|].
    rewrite nth_error_app2 by lia. replace (length l + S i - length l)%nat with (S i) by lia. exact Hi.
Qed.

Lemma step_outcome own c c' m rs : disjoint_iterations own (snd c) -> step eqA c c' -> outcome own c' m rs -> outcome own c m rs.
Proof.
  intros D H [O1 [O2 O3]]. destruct H as [m0 a k p q|m0 a v k p q]; cbn [snd fst] in *.
  - split; [|split]; cbn [snd fst].
    + intros i x b Hx Hb. destruct (Nat.eq_dec i (length p)) as [->|Hi].
      * rewrite nth_mid_here in Hx. injection Hx as <-. cbn [alone]. apply (O1 (length p)); [apply nth_mid_here|exact Hb].
      * apply (O1 i); [|exact Hb]. rewrite (nth_mid_other p _ (Load a k)) by exact Hi. exact Hx.
    + intros b Hb. apply O2. intros i Hi. apply Hb. rewrite app_length in *. exact Hi.
    + rewrite O3. symmetry. apply map_mid; [reflexivity|]. reflexivity.
  - pose proof D as [_ K].
    pose proof (proj1 (K (length p) _ (nth_mid_here _ _ _))) as Ha.
    assert (Hlen : (length p < length (p ++ Store a v k :: q))%nat) by (rewrite app_length; cbn [length]; lia).
    split; [|split]; cbn [snd fst].
    + intros i x b Hx Hb. destruct (Nat.eq_dec i (length p)) as [->|Hi].
      * rewrite nth_mid_here in Hx. injection Hx as <-. cbn [alone]. apply (O1 (length p)); [apply nth_mid_here|exact Hb].
      * rewrite (proj2 (step_others own m0 a v _ (length p) i x D Hlen Ha ltac:(congruence) Hx) b Hb).
        apply (O1 i); [|exact Hb]. rewrite (nth_mid_other p _ (Store a v k)) by exact Hi. exact Hx.
    + intros b Hb. rewrite O2.
      * apply put_other. intros ->. exact (Hb _ Hlen Ha).
      * intros i Hi. apply Hb. rewrite app_length in *. exact Hi.
    + rewrite O3. symmetry. apply map_mid; [reflexivity|]. intros i z Hi Hz.
      exact (proj1 (step_others own m0 a v _ (length p) i z D Hlen Ha ltac:(congruence) Hz)).
Qed.

Lemma steps_outcome own c c' m rs : disjoint_iterations own (snd c) -> steps eqA c c' -> outcome own c' m rs -> outcome own c m rs.
Proof.
  intros D H. induction H as [c|c1 c2 c3 H1 _ IH]; [auto|]. intro O. eapply step_outcome; eauto using step_keeps.
Qed.

Lemma outcome_end own m rs : outcome own (m, map Ret rs) m (map Ok rs).
Proof.
  split; [|split]; cbn [snd fst]; [|reflexivity|].
  - intros i p a Hp _. rewrite nth_error_map' in Hp. destruct (nth_error rs i); [|discriminate]. injection Hp as <-. reflexivity.
  - rewrite map_map. reflexivity.
Qed.

(** C84, general form. *)
Lemma any_schedule own m0 its c m rs : disjoint_iterations own its -> steps eqA (m0, its) c -> finished c m rs ->
  (forall i p a, nth_error its i = Some p -> own i a -> m a = fst (alone eqA p m0) a) /\
  (forall a, (forall i, (i < length its)%nat -> ~ own i a) -> m a = m0 a) /\
  map Ok rs = map (fun p => snd (alone eqA p m0)) its.
Proof. intros D H ->. exact (steps_outcome own (m0, its) _ m (map Ok rs) D H (outcome_end own m rs)). Qed.

(** Nothing blocks: when no iteration fails alone, the loop can always go on until it is finished. *)
Definition returns (p : prog (A:=A) (V:=V) R) : option R := match p with Ret r => Some r | _ => None end.
Lemma blocked_or_not (ts : list (prog (A:=A) (V:=V) R)) m :
  (exists c, step eqA (m, ts) c) \/ (exists i x, nth_error ts i = Some (Fail x)) \/ exists rs, ts = map Ret rs.
Proof.
  induction ts as [|p ts IH]; [right; right; exists []; reflexivity|].
  destruct p as [r|x|a k|a v k].
  - destruct IH as [[c H]|[[i [x H]]|[rs ->]]].
    + left. inversion H; subst.
      * eexists. apply (step_load eqA m a k (Ret r :: p) q).
      * eexists. apply (step_store eqA m a v k (Ret r :: p) q).
    + right; left. exists (S i), x. exact H.
    + right; right. exists (r :: rs). reflexivity.
  - right; left. exists 0%nat, x. reflexivity.
  - left. eexists. apply (step_load eqA m a k [] ts).
  - left. eexists. apply (step_store eqA m a v k [] ts).
Qed.
Definition no_failure (c : (A -> V) * list (prog (A:=A) (V:=V) R)) : Prop :=
  forall i p, nth_error (snd c) i = Some p -> exists r, snd (alone eqA p (fst c)) = Ok r.
Lemma step_no_failure own c c' : disjoint_iterations own (snd c) -> step eqA c c' -> no_failure c -> no_failure c'.
Proof.
  intros D H F. destruct H as [m0 a k p q|m0 a v k p q]; cbn [snd fst] in *; intros i x Hx; cbn [snd fst] in *.
  - destruct (Nat.eq_dec i (length p)) as [->|Hi].
    + rewrite nth_mid_here in Hx. injection Hx as <-. exact (F (length p) _ (nth_mid_here _ _ _)).
    + rewrite (nth_mid_other p _ (Load a k)) in Hx by exact Hi. exact (F i x Hx).
  - pose proof D as [_ K]. pose proof (proj1 (K (length p) _ (nth_mid_here _ _ _))) as Ha.
    assert (Hlen : (length p < length (p ++ Store a v k :: q))%nat) by (rewrite app_length; cbn [length]; lia).
    destruct (Nat.eq_dec i (length p)) as [->|Hi].
    + rewrite nth_mid_here in Hx. injection Hx as <-. exact (F (length p) _ (nth_mid_here _ _ _)).
    + rewrite (nth_mid_other p _ (Store a v k)) in Hx by exact Hi. 
      rewrite <- (proj1 (step_others own m0 a v _ (length p) i x D Hlen Ha ltac:(congruence) Hx)). exact (F i x Hx).
Qed.
Lemma goes_on own m0 its c : disjoint_iterations own its -> (forall p, In p its -> exists r, snd (alone eqA p m0) = Ok r) ->
  steps eqA (m0, its) c -> (exists c', step eqA c c') \/ exists m rs, finished c m rs.
Proof.
  intros D F H.
  assert (G : disjoint_iterations own (snd c) /\ no_failure c).
  { assert (F' : no_failure (m0, its)) by (intros i p Hp; apply F; exact (nth_error_In _ _ Hp)).
    change its with (snd (m0, its)) in D. clear F. revert D F'. induction H as [|c1 c2 c3 H1 _ IH]; [auto|].
    intros D F. apply IH; eauto using step_keeps, step_no_failure. }
  destruct G as [D' F']. destruct c as [m ts]. destruct (blocked_or_not ts m) as [H1|[[i [x H1]]|[rs ->]]].
  - left. exact H1.
  - destruct (F' i _ H1) as [r Hr]. discriminate.
  - right. exists m, rs. reflexivity.
Qed.

(** Every schedule ends. *)
Definition smaller (p' p : prog (A:=A) (V:=V) R) : Prop :=
  (exists a k v, p = Load a k /\ p' = k v) \/ (exists a v, p = Store a v p').
Lemma smaller_wf : forall p, Acc smaller p.
Proof.
  induction p as [r|x|a k IH|a v k IH]; constructor; intros p' [[b [k' [w [E ->]]]]|[b [w E]]]; try discriminate.
  - injection E as <- <-. apply IH.
  - injection E as <- <- <-. exact IH.
Qed.
Inductive smaller_list : list (prog (A:=A) (V:=V) R) -> list (prog (A:=A) (V:=V) R) -> Prop :=
| smaller_at l x x' q : smaller x' x -> smaller_list (l ++ x' :: q) (l ++ x :: q).
Lemma smaller_list_wf : forall ts, Acc smaller_list ts.
Proof.
  assert (C : forall x, Acc smaller x -> forall ts, Acc smaller_list ts -> Acc smaller_list (x :: ts)).
  { intros x Hx. induction Hx as [x _ IHx]. intros ts Hts. induction Hts as [ts Hts' IHts].
    constructor. intros l' H. remember (x :: ts) as l eqn:E. destruct H as [p y y' q Hy].
    destruct p as [|z p]; cbn [app] in *; injection E as E1 E2; subst.
    - apply IHx; [exact Hy|]. constructor. exact Hts'.
    - apply IHts. constructor. exact Hy. }
  induction ts as [|x ts IH]; [|apply C; [apply smaller_wf|exact IH]].
  constructor. intros l' H. remember [] as l eqn:E. destruct H as [p y y' q Hy]. destruct p; discriminate.
Qed.
Lemma step_ends : forall c, Acc (fun c' c => step eqA (R:=R) c c') c.
Proof.
  intros [m ts]. revert m. pose proof (smaller_list_wf ts) as W. induction W as [ts _ IH]. intros m. constructor. intros c' H.
  remember (m, ts) as c eqn:E. destruct H as [m0 a k p q|m0 a v k p q]; injection E as -> <-.
  - apply IH. constructor. left. exists a, k, (m a). auto.
  - apply IH. constructor. right. exists a, v. reflexivity.
Qed.
End General.

(** ** Programs put together *)
Section Combine.
Context {A V : Type} (eqA : A -> A -> bool).
Lemma keeps_andthen {R S} own read (p : prog (A:=A) (V:=V) R) (f : R -> prog (A:=A) (V:=V) S) :
  keeps_to own read p -> (forall r, keeps_to own read (f r)) -> keeps_to own read (andthen p f).
Proof.
  intros K F. induction p as [r|x|a k IH|a v k IH]; cbn [andthen keeps_to] in *.
  - apply F.
  - exact I.
  - destruct K as [Ka K]. split; [exact Ka|]. intro v. apply IH, K.
  - destruct K as [Ka K]. split; [exact Ka|]. apply IH, K.
Qed.
Lemma keeps_repeated {R X} own read (f : R -> X -> prog (A:=A) (V:=V) R) l :
  (forall r x, In x l -> keeps_to own read (f r x)) -> forall r, keeps_to own read (repeated f l r).
Proof.
  induction l as [|x l IH]; intros H r; cbn [repeated]; [exact I|]. apply keeps_andthen; [apply H; left; reflexivity|].
  intro r'. apply IH. intros r0 y Hy. apply H. right. exact Hy.
Qed.
Lemma alone_andthen {R S} (p : prog (A:=A) (V:=V) R) (f : R -> prog (A:=A) (V:=V) S) : forall m,
  alone eqA (andthen p f) m = match alone eqA p m with (m', Ok r) => alone eqA (f r) m' | (m', Err x) => (m', Err x) end.
Proof. induction p as [r|x|a k IH|a v k IH]; intro m; cbn [andthen alone]; auto. Qed.
End Combine.

(** ** A given schedule *)
Section Play.
Context {A V R : Type} (eqA : A -> A -> bool).
Fixpoint at_step (m : A -> V) (ts : list (prog (A:=A) (V:=V) R)) (i : nat) : (A -> V) * list (prog (A:=A) (V:=V) R) :=
  match ts, i with
  | [], _ => (m, [])
  | Load a k :: r, O => (m, k (m a) :: r)
  | Store a v k :: r, O => (put eqA m a v, k :: r)
  | t :: r, O => (m, t :: r)
  | t :: r, S i' => let '(m', r') := at_step m r i' in (m', t :: r')
  end.
Definition play (sched : list nat) (c : (A -> V) * list (prog (A:=A) (V:=V) R)) := fold_left (fun c i => at_step (fst c) (snd c) i) sched c.
Lemma at_step_ok : forall ts m i, at_step m ts i = (m, ts) \/ step eqA (m, ts) (at_step m ts i).
Proof.
  induction ts as [|t ts IH]; intros m i; [left; destruct i; reflexivity|]. destruct i as [|i]; cbn [at_step].
  - destruct t as [r|x|a k|a v k]; [left; reflexivity|left; reflexivity| |]; right.
    + apply (step_load eqA m a k [] ts).
    + apply (step_store eqA m a v k [] ts).
  - destruct t as [r|x|a k|a v k].
    all: destruct (at_step m ts i) as [m' r'] eqn:E; destruct (IH m i) as [H|H]; rewrite E in H;
      [injection H as -> ->; left; reflexivity|right].
    all: match goal with |- step _ (_, ?t :: _) _ => inversion H; subst;
      [match goal with |- step _ (_, _ :: ?p ++ Load ?a ?k :: ?q) _ => apply (step_load eqA m' a k (t :: p) q) end
      |match goal with |- step _ (_, _ :: ?p ++ Store ?a ?v ?k :: ?q) _ => apply (step_store eqA m a v k (t :: p) q) end] end.
Qed.
Lemma play_steps sched : forall c, steps eqA c (play sched c).
Proof.
  induction sched as [|i sched IH]; intros [m ts]; [apply steps_refl|]. unfold play. cbn [fold_left]. fold (play sched (at_step m ts i)).
  destruct (at_step_ok ts m i) as [E|H]; cbn [fst snd]; [rewrite E; apply IH|]. eapply steps_next; [exact H|apply IH].
Qed.
Lemma play_reaches sched c ts : snd (play sched c) = ts -> steps eqA c (fst (play sched c), ts).
Proof. intros <-. rewrite <- surjective_pairing. apply play_steps. Qed.
End Play.
