(** The file system: looking after a change; legal changes keep it sound; frames. *)
From Coq Require Import Ascii String List ZArith Bool Lia Permutation.
From Verif Require Import Base M_Text M_Fetcher S_Fetcher.
Import ListNotations.

Lemma look_cons : forall p n s q, look ((p, n) :: s) q = if path_dec p q then Some n else look s q.
Proof. intros. unfold look. cbn [find fst]. destruct (path_dec p q); reflexivity. Qed.
Lemma look_drop : forall s p q, look (drop s p) q = if path_dec p q then None else look s q.
Proof.
  induction s as [|[a n] s IH]; intros p q.
  - cbn. destruct (path_dec p q); reflexivity.
  - unfold drop. cbn [filter fst]. fold (drop s p). rewrite look_cons. destruct (path_dec a p) as [E|E].
    + rewrite IH. destruct (path_dec p q) as [F|F]; [reflexivity|]. destruct (path_dec a q); [congruence|reflexivity].
    + rewrite look_cons, IH. destruct (path_dec a q) as [F|F]; [|reflexivity]. destruct (path_dec p q); [congruence|reflexivity].
Qed.
Lemma look_store : forall s p n q, look (store s p n) q = if path_dec p q then Some n else look s q.
Proof. intros. unfold store. rewrite look_cons, look_drop. destruct (path_dec p q); reflexivity. Qed.
Lemma look_in : forall s p n, look s p = Some n -> In (p, n) s.
Proof.
  induction s as [|[a m] s IH]; intros p n H; [discriminate|]. rewrite look_cons in H. destruct (path_dec a p) as [E|E].
  - injection H as <-. subst. left. reflexivity.
  - right. apply IH. exact H.
Qed.
Lemma in_look : forall s p n, NoDup (map fst s) -> In (p, n) s -> look s p = Some n.
Proof.
  induction s as [|[a m] s IH]; intros p n D H; [contradiction|]. cbn in D. inversion D; subst. rewrite look_cons. destruct H as [H|H].
  - injection H as -> ->. destruct (path_dec p p); congruence.
  - destruct (path_dec a p) as [E|E]; [|apply IH; assumption]. subst. exfalso. apply H2. apply (in_map fst) in H. exact H.
Qed.
Lemma look_some_in : forall s p, look s p <> None <-> In p (map fst s).
Proof.
  intros s p. split.
  - destruct (look s p) as [n|] eqn:E; [|congruence]. intros _. apply look_in in E. apply (in_map fst) in E. exact E.
  - induction s as [|[a m] s IH]; [contradiction|]. rewrite look_cons. cbn. destruct (path_dec a p); [discriminate|]. intros [F|F]; [congruence|auto].
Qed.
Lemma effects_app : forall l l' s, effects s (l ++ l') = effects (effects s l) l'.
Proof. intros. unfold effects. apply fold_left_app. Qed.

Lemma removelast_snoc : forall (A : Type) (l : list A) x, removelast (l ++ [x]) = l.
Proof. intros. apply removelast_last. Qed.
Lemma snoc_inj : forall (A : Type) (a b : list A) x y, a ++ [x] = b ++ [y] -> a = b /\ x = y.
Proof. intros. apply app_inj_tail. assumption. Qed.
Lemma starts_refl : forall p, starts p p. Proof. intros p. exists []. symmetry. apply app_nil_r. Qed.
Lemma starts_app : forall p r, starts p (p ++ r). Proof. intros. exists r. reflexivity. Qed.
Lemma starts_trans : forall p q r, starts p q -> starts q r -> starts p r.
Proof. intros p q r [a ->] [b ->]. exists (a ++ b). symmetry. apply app_assoc. Qed.
Lemma before_starts : forall p q, before p q -> starts p q. Proof. intros p q (r & _ & E). exists r. exact E. Qed.
Lemma starts_before : forall p q, starts p q -> p <> q -> before p q.
Proof. intros p q [r ->] H. exists r. split; [|reflexivity]. intros ->. apply H. symmetry. apply app_nil_r. Qed.
Lemma starts_length : forall p q, starts p q -> (length p <= length q)%nat.
Proof. intros p q [r ->]. rewrite app_length. lia. Qed.
Lemma before_length : forall p q, before p q -> (length p < length q)%nat.
Proof. intros p q (r & H & ->). rewrite app_length. destruct r; [congruence|cbn; lia]. Qed.
Lemma starts_antisym : forall p q, starts p q -> starts q p -> p = q.
Proof. intros p q [r ->] [t E]. rewrite <- app_assoc in E. apply (f_equal (@length _)) in E. rewrite !app_length in E. destruct r; [symmetry; apply app_nil_r|cbn in E; lia]. Qed.
Lemma before_irrefl : forall p, ~ before p p.
Proof. intros p H. apply before_length in H. lia. Qed.
Lemma before_starts_trans : forall p q r, before p q -> starts q r -> before p r.
Proof. intros p q r (a & H & ->) [b ->]. exists (a ++ b). split; [destruct a; [congruence|discriminate]|symmetry; apply app_assoc]. Qed.
Lemma starts_before_trans : forall p q r, starts p q -> before q r -> before p r.
Proof. intros p q r [a ->] (b & H & ->). exists (a ++ b). split; [destruct a; [exact H|discriminate]|symmetry; apply app_assoc]. Qed.
(** Two prefixes of one path. *)
Lemma starts_linear : forall p q r, starts p r -> starts q r -> starts p q \/ starts q p.
Proof.
  induction p as [|x p IH]; intros q r Hp Hq.
  - left. exists q. reflexivity.
  - destruct q as [|y q]; [right; exists (x :: p); reflexivity|]. destruct Hp as [a ->], Hq as [b E]. cbn in E. injection E as E1 E2. subst y.
    destruct (IH q (p ++ a)) as [[c F]|[c F]]; [apply starts_app|exists b; exact E2| |].
    + left. exists c. cbn. f_equal. exact F.
    + right. exists c. cbn. f_equal. exact F.
Qed.
Lemma starts_app_inv : forall p r q, starts (p ++ q) (p ++ r) -> starts q r.
Proof. intros p r q [a E]. rewrite <- app_assoc in E. apply app_inv_head in E. exists a. exact E. Qed.
Lemma starts_nil : forall p, starts [] p. Proof. intros p. exists p. reflexivity. Qed.
Lemma starts_dec : forall p q, {starts p q} + {~ starts p q}.
Proof.
  intros p q. destruct (path_dec (firstn (length p) q) p) as [E|E].
  - left. exists (skipn (length p) q). rewrite <- E at 1. symmetry. apply firstn_skipn.
  - right. intros [r ->]. apply E. rewrite firstn_app, Nat.sub_diag, firstn_all. cbn. apply app_nil_r.
Qed.
Lemma within_iff : forall p q, within p q = true <-> starts p q.
Proof.
  intros p q. unfold within. destruct (path_dec (firstn (length p) q) p) as [E|E]; split; intros H; try reflexivity; try discriminate.
  - exists (skipn (length p) q). rewrite <- E at 1. symmetry. apply firstn_skipn.
  - destruct H as [r ->]. exfalso. apply E. rewrite firstn_app, Nat.sub_diag, firstn_all. cbn. apply app_nil_r.
Qed.
Lemma path_snoc : forall p : path, p <> [] -> exists a x, p = a ++ [x].
Proof. intros p H. destruct (exists_last H) as (a & x & E). exists a, x. exact E. Qed.
(** A prefix of [a ++ [x]] is the whole or a prefix of [a]. *)
Lemma starts_snoc : forall p a x, starts p (a ++ [x]) -> p = a ++ [x] \/ starts p a.
Proof.
  intros p a x [r E]. destruct r as [|y r].
  - left. rewrite app_nil_r in E. symmetry. exact E.
  - right. destruct (exists_last (l:=y :: r)) as (r' & z & F); [discriminate|]. rewrite F, app_assoc in E. apply app_inj_tail in E. destruct E as [E _]. exists r'. exact E.
Qed.

(** Changes that respect the structure of the file system. *)
Definition parent_ok (s : fs) (p : path) : Prop := forall a x, p = a ++ [x] -> a = [] \/ look s a = Some Dir.
Definition legal (s : fs) (e : event) : Prop :=
  match e with
  | Ask _ => True
  | Mkdir p => look s p = None /\ parent_ok s p
  | Create p => look s p <> Some Dir /\ parent_ok s p
  | Append p _ => exists c, look s p = Some (File c)
  | Remove p => forall q, look s q <> None -> starts p q -> q = p
  end.
Lemma nodup_drop : forall s p, NoDup (map fst s) -> NoDup (map fst (drop s p)) /\ ~ In p (map fst (drop s p)).
Proof.
  intros s p D. split.
  - unfold drop. induction s as [|[a n] s IH]; cbn; [constructor|]. cbn in D. inversion D; subst. destruct (path_dec a p); cbn [map]; [auto|]. constructor; [|auto].
    intros H. apply H1. apply in_map_iff in H. destruct H as (e & E & H). apply filter_In in H. apply in_map_iff. exists e. tauto.
  - intros H. apply look_some_in in H. rewrite look_drop in H. destruct (path_dec p p); congruence.
Qed.
Lemma nodup_store : forall s p n, NoDup (map fst s) -> NoDup (map fst (store s p n)).
Proof. intros s p n D. unfold store. cbn. destruct (nodup_drop s p D). constructor; assumption. Qed.
Lemma legal_sound : forall s e, sound s -> legal s e -> sound (effect s e).
Proof.
  intros s e [D P] L. destruct e as [u|p|p|p c|p]; cbn in L |- *.
  - split; assumption.
  - destruct L as [N Q]. split; [apply nodup_store, D|]. intros a x n H. rewrite look_store in H |- *.
    destruct (path_dec p (a ++ [x])) as [E|E].
    + destruct (Q a x E) as [F|F]; [left; exact F|right]. destruct (path_dec p a); [reflexivity|exact F].
    + destruct (P a x n H) as [F|F]; [left; exact F|right]. destruct (path_dec p a); [reflexivity|exact F].
  - destruct L as [N Q]. split; [apply nodup_store, D|]. intros a x n H. rewrite look_store in H |- *.
    destruct (path_dec p (a ++ [x])) as [E|E].
    + destruct (Q a x E) as [F|F]; [left; exact F|right]. destruct (path_dec p a) as [G|G]; [subst p; congruence|exact F].
    + destruct (P a x n H) as [F|F]; [left; exact F|right]. destruct (path_dec p a) as [G|G]; [subst p; congruence|exact F].
  - destruct L as [c0 N]. split; [apply nodup_store, D|]. intros a x n H. rewrite look_store in H |- *.
    destruct (path_dec p (a ++ [x])) as [E|E].
    + subst p. destruct (P a x _ N) as [F|F]; [left; exact F|right]. destruct (path_dec (a ++ [x]) a) as [G|G]; [|exact F].
      exfalso. apply (f_equal (@length _)) in G. rewrite app_length in G. cbn in G. lia.
    + destruct (P a x n H) as [F|F]; [left; exact F|right]. destruct (path_dec p a) as [G|G]; [subst p; congruence|exact F].
  - split; [apply (nodup_drop s p D)|]. intros a x n H. rewrite look_drop in H |- *. destruct (path_dec p (a ++ [x])) as [E|E]; [discriminate|].
    destruct (P a x n H) as [F|F]; [left; exact F|right]. destruct (path_dec p a) as [G|G]; [|exact F]. subst p.
    exfalso. apply E. symmetry. apply (L (a ++ [x])); [congruence|apply starts_app].
Qed.

(** Every change of a list is as required in the state in which it happens. *)
Fixpoint along (P : fs -> event -> Prop) (s : fs) (l : list event) : Prop :=
  match l with [] => True | e :: r => P s e /\ along P (effect s e) r end.
Lemma along_app : forall P l l' s, along P s (l ++ l') <-> along P s l /\ along P (effects s l) l'.
Proof. intros P. induction l as [|e l IH]; intros l' s; cbn [app along effects fold_left]; [tauto|]. rewrite IH. unfold effects. tauto. Qed.
Lemma along_firstn : forall P l s k, along P s l -> along P s (firstn k l).
Proof. intros P. induction l as [|e l IH]; intros s k H; destruct k as [|k]; cbn; try exact I. cbn in H. split; [apply H|apply IH, H]. Qed.
Lemma along_impl : forall (P Q : fs -> event -> Prop), (forall s e, P s e -> Q s e) -> forall l s, along P s l -> along Q s l.
Proof. intros P Q H. induction l as [|e l IH]; intros s A; cbn in *; [exact I|]. split; [apply H, A|apply IH, A]. Qed.
Lemma along_preserves : forall (P : fs -> event -> Prop) (I : fs -> Prop), (forall s e, I s -> P s e -> I (effect s e)) ->
  forall l s, I s -> along P s l -> I (effects s l).
Proof. intros P I H. induction l as [|e l IH]; intros s Hi A; cbn [effects fold_left along] in *; [exact Hi|]. apply IH; [apply H; [exact Hi|apply A]|apply A]. Qed.

Lemma io_bind_ok : forall (A B : Type) (m : io A) (f : A -> io B) s l a l' r, m s = (l, Ok a) -> f a (effects s l) = (l', r) -> io_bind m f s = (l ++ l', r).
Proof. intros A B m f s l a l' r H F. unfold io_bind. rewrite H, F. reflexivity. Qed.
Lemma io_bind_err : forall (A B : Type) (m : io A) (f : A -> io B) s l e, m s = (l, Err e) -> io_bind m f s = (l, Err e).
Proof. intros A B m f s l e H. unfold io_bind. rewrite H. reflexivity. Qed.
Lemma along_bind : forall P (A B : Type) (m : io A) (f : A -> io B) s, along P s (fst (m s)) ->
  (forall a, snd (m s) = Ok a -> along P (effects s (fst (m s))) (fst (f a (effects s (fst (m s)))))) -> along P s (fst (io_bind m f s)).
Proof.
  intros P A B m f s H K. unfold io_bind. destruct (m s) as [l [a|e]]; cbn [fst snd] in *; [|exact H].
  specialize (K a eq_refl). destruct (f a (effects s l)) as [l' r]. cbn [fst] in *. apply along_app. split; assumption.
Qed.

(** Changes confined to a directory (and the directories leading to it). *)
Definition inside (part : path) (e : event) : Prop :=
  match e with
  | Ask _ => True
  | Mkdir p => starts p part \/ before part p
  | Create p | Append p _ | Remove p => before part p
  end.
Lemma inside_frame : forall part l s, along (fun s e => legal s e /\ inside part e) s l ->
  forall q, ~ before part q -> ~ (starts q part) -> look (effects s l) q = look s q.
Proof.
  intros part. induction l as [|e l IH]; intros s A q N1 N2; [reflexivity|]. cbn [along effects fold_left] in *. destruct A as [[L I] A].
  change (fold_left effect l (effect s e)) with (effects (effect s e) l). rewrite (IH _ A q N1 N2).
  destruct e as [u|p|p|p c|p]; cbn in I |- *; [reflexivity|..]; rewrite ?look_store, ?look_drop; (destruct (path_dec p q) as [E|E]; [exfalso; subst; tauto|reflexivity]).
Qed.
Lemma inside_frame_up : forall part l s, along (fun s e => legal s e /\ inside part e) s l ->
  forall q n, ~ before part q -> look s q = Some n -> look (effects s l) q = Some n.
Proof.
  intros part. induction l as [|e l IH]; intros s A q n N1 H; [exact H|]. cbn [along effects fold_left] in *. destruct A as [[L I] A].
  apply (IH _ A q n N1).
  destruct e as [u|p|p|p c|p]; cbn in I, L |- *; [exact H|..]; rewrite ?look_store, ?look_drop; (destruct (path_dec p q) as [E|E]; [exfalso; subst p|exact H]).
  - destruct L as [L _]. congruence.
  - tauto.
  - tauto.
  - tauto.
Qed.
Lemma inside_open_way : forall part l s p, along (fun s e => legal s e /\ inside part e) s l -> starts p part -> open_way s p -> open_way (effects s l) p.
Proof.
  intros part l s p A T. revert s A. induction l as [|e l IH]; intros s A W; [exact W|]. cbn [along effects fold_left] in *. destruct A as [[L I] A].
  apply IH; [exact A|]. intros a c Ha Na H. assert (X : starts a part) by (eapply starts_trans; eassumption).
  assert (NB : ~ before part a). { intros B. apply before_length in B. apply starts_length in X. lia. }
  destruct e as [u|q|q|q b|q]; cbn in I, L, H; try (rewrite ?look_store, ?look_drop in H; destruct (path_dec q a) as [E|E]; [subst q; try discriminate; tauto|]);
    apply (W a c Ha Na H).
Qed.
Lemma sound_above : forall s, sound s -> forall b a n, a <> [] -> b <> [] -> look s (a ++ b) = Some n -> look s a = Some Dir.
Proof.
  intros s [D P] b. induction b as [|x b IH] using rev_ind; intros a n Na Nb H; [congruence|].
  rewrite app_assoc in H. destruct (P _ _ _ H) as [E|E]; [destruct a; [congruence|discriminate]|].
  destruct b as [|y b]; [rewrite app_nil_r in E; exact E|]. apply (IH a Dir); [exact Na|discriminate|exact E].
Qed.
