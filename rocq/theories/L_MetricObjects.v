(** Programs run with functions and with objects: laws. *)
From Coq Require Import List ZArith Bool Lia.
From Verif Require Import Base Num M_Dataset M_Metrics S_Metrics M_NDCG S_NDCG L_NDCG M_Ensemble M_Effectiveness M_MetricObjects S_MetricObjects.
Import ListNotations.

Section Functions.
Context {N : num}.
Variable fs : list (evaluator (N:=N)).
Notation rf := (run_functions fs).

Lemma rf_bind {A B} (p : prog A) (f : A -> prog B) : rf (pbind p f) = bind (rf p) (fun a => rf (f a)).
Proof.
  induction p as [r|j o s k IH]; cbn.
  - destruct r; reflexivity.
  - destruct (nth_error fs j); cbn; [|reflexivity]. destruct (e (snd o) s); cbn; [apply IH|reflexivity].
Qed.

Lemma rf_step {A B} (p : prog A) (f : A -> prog B) (r : res A) (g : A -> res B) :
  rf p = r -> (forall a, rf (f a) = g a) -> rf (pbind p f) = bind r g.
Proof. intros E H. rewrite rf_bind, E. destruct r; cbn; auto. Qed.

Lemma rf_map {A A' B} (R : A -> A' -> Prop) (f : A -> prog B) (g : A' -> res B) l l' : Forall2 R l l' ->
  (forall x x', R x x' -> rf (f x) = g x') -> rf (pmap f l) = mapM g l'.
Proof.
  intros HR H. induction HR as [|x x' l l' Hx _ IH]; cbn [pmap mapM]; [reflexivity|].
  apply rf_step; [apply H; auto|]. intros y. apply rf_step; [exact IH|]. reflexivity.
Qed.

Lemma rf_mapST {S A A' B} (R : A -> A' -> Prop) (f : S -> A -> prog (S * B)) (g : S -> A' -> res (S * B)) l l' : Forall2 R l l' ->
  (forall s x x', R x x' -> rf (f s x) = g s x') -> forall s, rf (pmapST f s l) = mapST g s l'.
Proof.
  intros HR H. induction HR as [|x x' l l' Hx _ IH]; intros s; cbn [pmapST mapST]; [reflexivity|].
  apply rf_step; [apply H; auto|]. intros y. apply rf_step; [apply IH|]. reflexivity.
Qed.

Lemma rf_fold {A B} (f : B -> A -> prog B) (g : B -> A -> res B) l :
  (forall b x, rf (f b x) = g b x) -> forall b, rf (pfold f l b) = foldM g l b.
Proof.
  intros H. induction l as [|x l IH]; intros b; cbn [pfold foldM]; [reflexivity|].
  apply rf_step; [apply H|]. exact IH.
Qed.

Lemma rf_ask j f o s : nth_error fs j = Some f -> rf (ask j o s) = f (snd o) s.
Proof. intros E. cbn. rewrite E. cbn. destruct (f (snd o) s); reflexivity. Qed.
End Functions.

Lemma Forall2_refl {A} (l : list A) : Forall2 eq l l.
Proof. induction l; auto. Qed.

Lemma Forall2_combine {A B C} (R : B -> C -> Prop) (a : list A) b c : Forall2 R b c ->
  Forall2 (fun x y => fst x = fst y /\ R (snd x) (snd y)) (combine a b) (combine a c).
Proof.
  intros H. revert a. induction H as [|x y b c Hx _ IH]; intros [|u a]; cbn; constructor; auto.
Qed.

(** ** Data sets a program asks about *)
Section Asks.
Context {N : num}.
Variable U : obj (N:=N) -> Prop.

Lemma asks_bind {A B} (p : prog A) (f : A -> prog B) : asks_in U p -> (forall a, asks_in U (f a)) -> asks_in U (pbind p f).
Proof.
  intros Hp Hf. induction p as [r|j o s k IH]; cbn in *.
  - destruct r; cbn; auto.
  - destruct Hp as [Ho Hk]. split; auto.
Qed.
Lemma asks_lift {A} (r : res A) : asks_in U (lift r).
Proof. exact I. Qed.
Lemma asks_ret {A} (a : A) : asks_in U (ret a).
Proof. exact I. Qed.
Lemma asks_ask j o s : U o -> asks_in U (ask j o s).
Proof. intros H. split; [auto|]. intros v. exact I. Qed.
Lemma asks_map {A B} (f : A -> prog B) l : (forall x, asks_in U (f x)) -> asks_in U (pmap f l).
Proof. intros H. induction l; cbn [pmap]; [exact I|]. apply asks_bind; auto. intros. apply asks_bind; auto. intros. exact I. Qed.
Lemma asks_fold {A B} (f : B -> A -> prog B) l : (forall b x, asks_in U (f b x)) -> forall b, asks_in U (pfold f l b).
Proof. intros H. induction l; intros b; cbn [pfold]; [exact I|]. apply asks_bind; auto. Qed.
Lemma asks_mapST {S A B} (Q : A -> Prop) (f : S -> A -> prog (S * B)) l : Forall Q l -> (forall s x, Q x -> asks_in U (f s x)) ->
  forall s, asks_in U (pmapST f s l).
Proof.
  intros HQ H. induction HQ; intros s; cbn [pmapST]; [exact I|]. apply asks_bind; auto. intros. apply asks_bind; auto. intros. exact I.
Qed.
End Asks.

(** ** Objects compute what they are meant to *)
Section Objects.
Context {N : num}.
Variable argsort : list N -> list nat.
Hypothesis Hs : permuting argsort.
Variable digest : list (list N) -> list N -> list Z -> Z.
Variable U : obj (N:=N) -> Prop.
Hypothesis HU : separate digest U.

(** [m] is [m0] after some calls on data sets of [U]. *)
Definition later (m0 m : mobj N) : Prop :=
  match m0, m with
  | Plain f, Plain f' => f = f'
  | Ndcg r g c _, Ndcg r' g' c' st => r' = r /\ g' = g /\ c' = c /\
      exists h, st = after argsort digest r g c h /\ Forall U (evaluated h)
  | _, _ => False
  end.

Lemma later_new ms : new_objects ms -> Forall2 later ms ms.
Proof.
  induction 1 as [|m ms Hm _ IH]; constructor; auto. destruct m; cbn; auto. subst st.
  repeat split. exists []. split; [reflexivity|constructor].
Qed.

Lemma eval_later m0 m o s : later m0 m -> U o ->
  later m0 (fst (eval_object argsort digest m o s)) /\ snd (eval_object argsort digest m o s) = meant argsort m0 (snd o) s.
Proof.
  intros L Ho. destruct m0 as [f|r g c st0], m as [f'|r' g' c' st]; cbn [later] in L; try contradiction.
  - subst f'. split; reflexivity.
  - destruct L as (-> & -> & -> & h & -> & Hh). cbn [eval_object meant].
    destruct HU as [Um Uc]. rewrite Forall_forall in Hh.
    destruct (C25_eval_lemma argsort Hs digest r g c h o s) as [E _].
    { apply Forall_forall. auto. } { auto. } { apply Forall_forall. auto. }
    destruct (ndcg_eval argsort digest r g c (after argsort digest r g c h) o s) as [st' v] eqn:En. cbn [fst snd] in *.
    split; [|exact E]. cbn [later]. repeat split. exists (h ++ [CallEval o s]). split.
    + unfold after. rewrite fold_left_app. cbn [fold_left step]. unfold after in En. rewrite En. reflexivity.
    + unfold evaluated. rewrite flat_map_app. apply Forall_app. split; [apply Forall_forall; exact Hh|]. cbn. auto.
Qed.

Lemma per_query_later m0 m y s : later m0 m -> later m0 (per_query_object argsort digest m y s).
Proof.
  intros L. destruct m0 as [f|r g c st0], m as [f'|r' g' c' st]; cbn [later] in L; try contradiction; [exact L|].
  destruct L as (-> & -> & -> & h & -> & Hh). cbn [per_query_object later]. repeat split.
  exists (h ++ [CallPerQuery y s]). split.
  - unfold after. rewrite fold_left_app. reflexivity.
  - unfold evaluated. rewrite flat_map_app. apply Forall_app. split; [exact Hh|constructor].
Qed.

Lemma later_upd ms0 ms j m0 m : Forall2 later ms0 ms -> nth_error ms0 j = Some m0 -> later m0 m -> Forall2 later ms0 (upd ms j m).
Proof.
  intros H. revert j. induction H as [|x y ms0 ms Hx Ht IH]; intros [|j] E L; cbn in *; try discriminate.
  - inversion E; subst. constructor; auto.
  - constructor; auto.
Qed.

Lemma later_nth ms0 ms j : Forall2 later ms0 ms ->
  match nth_error ms0 j, nth_error ms j with Some m0, Some m => later m0 m | None, None => True | _, _ => False end.
Proof. intros H. revert j. induction H; intros [|j]; cbn; auto. apply IHForall2. Qed.

Lemma run_later {A} ms0 (p : prog A) : asks_in U p -> forall ms, Forall2 later ms0 ms ->
  Forall2 later ms0 (fst (run_objects argsort digest ms p)) /\
  snd (run_objects argsort digest ms p) = run_functions (map (meant argsort) ms0) p.
Proof.
  induction p as [r|j o s k IH]; intros Hp ms L; cbn [run_objects run_functions]; [split; auto|].
  destruct Hp as [Ho Hk]. assert (Hj := later_nth _ _ j L). rewrite nth_error_map.
  destruct (nth_error ms0 j) as [m0|] eqn:E0, (nth_error ms j) as [m|] eqn:E; try contradiction; cbn [option_map of_option bind fst snd]; [|auto].
  destruct (eval_later m0 m o s Hj Ho) as [L' Ev]. destruct (eval_object argsort digest m o s) as [m' r]. cbn [fst snd] in *.
  rewrite <- Ev. destruct r as [v|e]; cbn [bind].
  - apply IH; auto. eapply later_upd; eauto.
  - cbn [fst snd]. split; [eapply later_upd; eauto|reflexivity].
Qed.

Lemma actions_later ms0 h : actions_in U h -> forall ms, Forall2 later ms0 ms -> Forall2 later ms0 (after_actions argsort digest ms h).
Proof.
  induction 1 as [|a h Ha _ IH]; intros ms L; cbn [after_actions fold_left]; [exact L|].
  apply IH. destruct a as [A p|j y s]; cbn [act].
  - apply run_later; auto.
  - assert (Hj := later_nth _ _ j L). destruct (nth_error ms j) as [m|] eqn:E; auto.
    destruct (nth_error ms0 j) as [m0|] eqn:E0; [|contradiction]. eapply later_upd; eauto. apply per_query_later; auto.
Qed.

Lemma objects_lemma ms0 h : new_objects ms0 -> actions_in U h ->
  forall A (p : prog A), asks_in U p ->
  snd (run_objects argsort digest (after_actions argsort digest ms0 h) p) = run_functions (map (meant argsort) ms0) p.
Proof.
  intros Hn Hh A p Hp. apply run_later; auto. apply actions_later; auto. apply later_new; auto.
Qed.

Lemma positions_functions ms js fs : positions argsort ms js fs ->
  Forall2 (fun j f => nth_error (map (meant argsort) ms) j = Some f) js fs.
Proof. induction 1 as [|j f js fs (m & E & ->) _ IH]; constructor; auto. rewrite nth_error_map, E. reflexivity. Qed.
End Objects.
