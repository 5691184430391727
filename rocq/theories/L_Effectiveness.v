(** Proofs about the effectiveness analysis: caching, and each function as a pure one. *)
From Coq Require Import List ZArith Bool Lia Arith Reals.
From Verif Require Import Base Num Lists M_Dataset M_NDCG S_Dataset M_Ensemble S_Ensemble L_Ensemble L_Ensemble2 L_Ensemble3 M_Effectiveness S_Effectiveness.
Import ListNotations.
Local Open Scope Z_scope.

Section MapST.
Context {S A B : Type}.
Lemma mapST_inv (I : S -> Prop) (f : S -> A -> res (S * B)) (g : A -> res B) (l : list A) :
  (forall s a, I s -> In a l -> match g a with Ok b => exists s', f s a = Ok (s', b) /\ I s' | Err e => f s a = Err e end) ->
  forall s, I s -> match mapM g l with Ok bs => exists s', mapST f s l = Ok (s', bs) /\ I s' | Err e => mapST f s l = Err e end.
Proof.
  induction l as [|a l IH]; intros H s Hs; cbn [mapM mapST]; [exists s; split; [reflexivity|exact Hs]|].
  pose proof (H s a Hs (or_introl eq_refl)) as Ha. destruct (g a) as [b|e]; cbn [bind]; [|rewrite Ha; reflexivity].
  destruct Ha as [s1 [-> Hs1]]. cbn [bind fst snd].
  specialize (IH (fun s a Hs Ha => H s a Hs (or_intror Ha)) s1 Hs1). destruct (mapM g l) as [bs|e]; cbn [bind]; [|rewrite IH; reflexivity].
  destruct IH as [s2 [-> Hs2]]. cbn [bind fst snd]. exists s2. split; [reflexivity|exact Hs2].
Qed.
End MapST.

Lemma Forall2_nth {A B} (P : A -> B -> Prop) l l' i a : Forall2 P l l' -> nth_error l i = Some a -> exists b, nth_error l' i = Some b /\ P a b.
Proof.
  intros H. revert i. induction H as [|x y l l' Hxy H IH]; intros [|i] E; cbn [nth_error] in *; try discriminate.
  - injection E as <-. exists y. split; [reflexivity|exact Hxy].
  - exact (IH i E).
Qed.
Lemma mapM_nth {A B} (f : A -> res B) l bs i a : mapM f l = Ok bs -> nth_error l i = Some a -> exists b, nth_error bs i = Some b /\ f a = Ok b.
Proof. intros H E. apply mapM_ok_iff in H. exact (Forall2_nth _ _ _ _ _ H E). Qed.
Lemma mapM_err {A B} (f : A -> res B) l e : mapM f l = Err e -> exists a, In a l /\ f a = Err e.
Proof.
  induction l as [|x l IH]; cbn [mapM]; [discriminate|]. destruct (f x) as [b|e'] eqn:E; cbn [bind].
  - destruct (mapM f l); cbn [bind]; [discriminate|]. intros H. destruct (IH H) as [a [Ha Ea]]. exists a. split; [right; exact Ha|exact Ea].
  - intros H. injection H as ->. exists x. split; [left; reflexivity|exact E].
Qed.

Section Any.
Context {N : Num.num}.
Variable (rowsum : list N -> N) (digest : list (list N) -> list N -> list Z -> Z).

Lemma score_uncached_state (m : model N) (o : obj (N:=N)) det : fst (score rowsum digest m o det false) = m.
Proof.
  unfold score. destruct (do _ <- check_features (m_ens m) (snd o); scorer_find digest (m_cache m) o) as [found|]; [|reflexivity].
  destruct (match found with None => None | Some s => if det && negb (is_some (sc_partial s)) then None else Some s end); [reflexivity|].
  cbv zeta. destruct (scorer_score rowsum (m_ens m) (ds_X (snd o)) new_scorer det) as [[s y]|]; reflexivity.
Qed.
Lemma upd_same {A} (l : list A) i a : nth_error l i = Some a -> upd l i a = l.
Proof. revert i. induction l as [|x l IH]; intros [|i] H; cbn [nth_error upd] in *; try discriminate; [injection H as ->; reflexivity|]. rewrite (IH i H). reflexivity. Qed.

(** What the state needs to satisfy. *)
Definition transparent (st0 : list (model N)) (ds : list (obj (N:=N))) (cache : bool) (I : list (model N) -> Prop) : Prop :=
  I st0 /\
  (forall st i o det, I st -> In o ds ->
     match alone rowsum digest st0 i o det with
     | Ok a => exists st', score_in rowsum digest st i o det cache = Ok (st', a) /\ I st'
     | Err e => score_in rowsum digest st i o det cache = Err e
     end) /\
  (forall st i, I st -> n_trees_of st i = n_trees_of st0 i).

Lemma transparent_uncached st0 ds : transparent st0 ds false (fun st => st = st0).
Proof.
  split; [reflexivity|]. split; [|intros st i ->; reflexivity]. intros st i o det -> _. unfold alone, score_in.
  destruct (nth_error st0 i) as [m|] eqn:Hm; [|reflexivity]. cbn [of_option bind].
  pose proof (score_uncached_state m o det) as E. destruct (score rowsum digest m o det false) as [m' r]. cbn [fst snd] in *. subst m'.
  destruct r as [a|e]; cbn [bind]; [|reflexivity]. exists st0. rewrite (upd_same st0 i m Hm). split; reflexivity.
Qed.

Section Pure.
Variable (st0 : list (model N)) (ds : list (obj (N:=N))) (cache : bool) (I : list (model N) -> Prop).
Hypothesis T : transparent st0 ds cache I.

Notation agrees r g := (match g with Ok bs => exists st', r = Ok (st', bs) /\ I st' | Err e => r = Err e end).

Lemma per_dataset {B} (det : bool) (k : nat -> obj (N:=N) -> answer (N:=N) -> res B) (h : list (model N) -> obj -> nat -> res (list (model N) * B)) ms :
  (forall st o i, I st -> In o ds -> h st o i = (do r <- score_in rowsum digest st i o det cache; do b <- k i o (snd r); Ok (fst r, b))) ->
  forall st, I st -> forall ds', incl ds' ds ->
  agrees (mapST (fun st o => mapST (fun st i => h st o i) st ms) st ds')
         (mapM (fun o => mapM (fun i => do a <- alone rowsum digest st0 i o det; k i o a) ms) ds').
Proof.
  intros Hh st Hst ds' Hin.
  apply (mapST_inv I (fun st o => mapST (fun st i => h st o i) st ms) (fun o => mapM (fun i => do a <- alone rowsum digest st0 i o det; k i o a) ms)); [|exact Hst].
  intros s o Hs Ho. apply (mapST_inv I (fun st i => h st o i) (fun i => do a <- alone rowsum digest st0 i o det; k i o a)); [|exact Hs].
  clear s Hs. intros s i Hs _. rewrite (Hh s o i Hs (Hin o Ho)). destruct T as [_ [T1 _]]. pose proof (T1 s i o det Hs (Hin o Ho)) as H.
  destruct (alone rowsum digest st0 i o det) as [a|e]; cbn [bind].
  - destruct H as [st' [-> Hst']]. cbn [bind fst snd]. destruct (k i o a) as [b|e]; cbn [bind]; [|reflexivity].
    exists st'. split; [reflexivity|exact Hst'].
  - rewrite H. reflexivity.
Qed.
End Pure.
End Any.

(** ** Caching in exact arithmetic *)
Section Real.
Variable (rowsum : list RE -> RE) (digest : list (list RE) -> list RE -> list Z -> Z).
Hypothesis rowsum_exact : forall l, rowsum l = Rtotal l.
Variable (st0 : list (model RE)) (sh : list shape) (ds : list (obj (N:=RE))) (cache : bool).
Hypothesis Hc : ready digest st0 sh ds.

Definition after (st : list (model RE)) : Prop :=
  length st = length st0 /\ forall i m, nth_error st0 i = Some m -> exists h, nth_error st i = Some (score_after (N:=RE) rowsum digest m h) /\ incl (scored h) ds.

Lemma score_keeps_ens (m : model RE) o det c : m_ens (fst (score (N:=RE) rowsum digest m o det c)) = m_ens m.
Proof.
  unfold score. destruct (do _ <- check_features (m_ens m) (snd o); scorer_find digest (m_cache m) o) as [found|]; [|reflexivity].
  destruct (match found with None => None | Some s => if det && negb (is_some (sc_partial s)) then None else Some s end); [reflexivity|].
  cbv zeta. destruct c.
  - destruct (scorer_store digest (m_cache m) o new_scorer); cbn [bind]; [|reflexivity].
    destruct (scorer_score rowsum (m_ens m) (ds_X (snd o)) new_scorer det) as [[s y]|]; [|reflexivity].
    destruct (scorer_store digest (m_cache m) o (adjust m det s)); reflexivity.
  - destruct (scorer_score rowsum (m_ens m) (ds_X (snd o)) new_scorer det) as [[s y]|]; reflexivity.
Qed.
Lemma after_ens (m : model RE) h : m_ens (score_after (N:=RE) rowsum digest m h) = m_ens m.
Proof.
  revert m. induction h as [|c h IH]; intros m; [reflexivity|]. unfold score_after in *. cbn [fold_left]. rewrite IH.
  destruct c as [o det c|]; cbn [score_step]; [apply score_keeps_ens|reflexivity].
Qed.
Lemma nth_error_upd {A} (l : list A) i j a : (i < length l)%nat -> nth_error (upd l i a) j = if Nat.eqb i j then Some a else nth_error l j.
Proof.
  revert i j. induction l as [|x l IH]; intros i j H; [cbn [length] in H; lia|]. destruct i as [|i], j as [|j]; cbn [upd nth_error Nat.eqb]; try reflexivity.
  apply IH. cbn [length] in H. lia.
Qed.

Lemma transparent_cached : transparent rowsum digest st0 ds cache after.
Proof.
  destruct Hc as [H1 [H2 H3]]. split; [|split].
  - split; [reflexivity|]. intros i m Hm. exists []. split; [exact Hm|]. intros x [].
  - intros st i o det [HL HS] Ho. unfold alone, score_in. destruct (nth_error st0 i) as [m|] eqn:Hm.
    + destruct (HS i m Hm) as [h [E Hh]]. rewrite E. cbn [of_option bind].
      destruct (Forall2_nth _ _ _ _ _ H1 Hm) as [[ts ws] [_ [Cm [Lay [Ne Nf]]]]]. cbn [fst snd] in *.
      assert (G : snd (score (N:=RE) rowsum digest (score_after (N:=RE) rowsum digest m h) o det cache) = snd (score (N:=RE) rowsum digest m o det false)).
      { apply (C34_exact_lemma rowsum digest m ts ws h o det cache rowsum_exact Lay Ne Nf Cm).
        - intros k Hk. rewrite Forall_forall in H2. apply H2. destruct Hk as [<-|Hk]; [exact Ho|apply Hh; exact Hk].
        - intros k k' Hk Hk'. apply H3; [destruct Hk as [<-|Hk]|destruct Hk' as [<-|Hk']]; auto. }
      destruct (score (N:=RE) rowsum digest (score_after (N:=RE) rowsum digest m h) o det cache) as [m' r] eqn:Q. cbn [snd] in G. subst r.
      destruct (snd (score (N:=RE) rowsum digest m o det false)) as [a|e] eqn:Sa; cbn [bind]; [|reflexivity].
      eexists. split; [reflexivity|]. assert (Hi : (i < length st)%nat) by (apply nth_error_Some; congruence).
      split; [rewrite upd_length; exact HL|]. intros j m2 Hj. rewrite nth_error_upd by exact Hi. destruct (Nat.eqb_spec i j) as [<-|Hij].
      * rewrite Hm in Hj. injection Hj as <-. exists (h ++ [CallScore o det cache]). split.
        -- unfold score_after. rewrite fold_left_app. cbn [fold_left score_step]. fold (score_after (N:=RE) rowsum digest m h). rewrite Q. reflexivity.
        -- unfold scored. rewrite flat_map_app. cbn [flat_map]. rewrite app_nil_r. apply incl_app; [exact Hh|]. intros x [<-|[]]. exact Ho.
      * apply HS. exact Hj.
    + assert (E : nth_error st i = None) by (apply nth_error_None; rewrite HL; apply nth_error_None; exact Hm). rewrite E. reflexivity.
  - intros st i [HL HS]. unfold n_trees_of. destruct (nth_error st0 i) as [m|] eqn:Hm.
    + destruct (HS i m Hm) as [h [E _]]. rewrite E. cbn [of_option bind]. rewrite after_ens. reflexivity.
    + assert (E : nth_error st i = None) by (apply nth_error_None; rewrite HL; apply nth_error_None; exact Hm). rewrite E. reflexivity.
Qed.
End Real.
