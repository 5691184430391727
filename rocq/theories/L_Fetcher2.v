(** Every change a call makes is legal and stays in the directory of the data set. *)
From Coq Require Import Ascii String List ZArith Bool Lia Permutation.
From Verif Require Import Base M_Text M_Fetcher S_Fetcher L_Fetcher.
Import ListNotations.

Definition proper (part : path) (s : fs) (e : event) : Prop := legal s e /\ inside part e.
Lemma proper_sound : forall part l s, sound s -> along (proper part) s l -> sound (effects s l).
Proof. intros part l s S A. apply (along_preserves (proper part) sound); [|exact S|exact A]. intros s0 e S0 [L _]. apply legal_sound; assumption. Qed.

Lemma mkdir_inside : forall part r a, starts a (part ++ r) -> inside part (Mkdir a).
Proof.
  intros part r a H. cbn. destruct (starts_linear a part (part ++ r) H (starts_app _ _)) as [G|G]; [left; exact G|].
  destruct (path_dec part a) as [E|E]; [left; subst; apply starts_refl|right; apply starts_before; assumption].
Qed.

Lemma make_path_along : forall part rest done s, (done = [] \/ look s done = Some Dir) ->
  (forall a, starts a (done ++ rest) -> inside part (Mkdir a)) ->
  along (proper part) s (fst (make_path done rest s)) /\
  (snd (make_path done rest s) = Ok tt -> done ++ rest = [] \/ look (effects s (fst (make_path done rest s))) (done ++ rest) = Some Dir).
Proof.
  intros part. induction rest as [|n r IH]; intros done s D P.
  - cbn. rewrite app_nil_r. tauto.
  - cbn [make_path]. destruct (look s (done ++ [n])) as [[|c]|] eqn:E.
    + replace (done ++ n :: r) with ((done ++ [n]) ++ r) in * by (rewrite <- app_assoc; reflexivity). apply IH; [right; exact E|exact P].
    + cbn. split; [exact I|discriminate].
    + replace (done ++ n :: r) with ((done ++ [n]) ++ r) in * by (rewrite <- app_assoc; reflexivity).
      unfold io_bind. cbn [tell]. cbn [effects fold_left effect].
      destruct (IH (done ++ [n]) (store s (done ++ [n]) Dir)) as [A B].
      * right. rewrite look_store. destruct (path_dec (done ++ [n]) (done ++ [n])); congruence.
      * exact P.
      * destruct (make_path (done ++ [n]) r (store s (done ++ [n]) Dir)) as [l x]. cbn [fst snd app] in *. split; [|exact B].
        cbn [along effect]. split; [|exact A]. split; [|apply P, starts_app]. split; [exact E|].
        intros a x0 F. apply snoc_inj in F. destruct F as [F _]. subst a. exact D.
Qed.
Lemma open_wb_along : forall part p s, before part p -> along (proper part) s (fst (open_wb p s)) /\
  (snd (open_wb p s) = Ok tt -> look (effects s (fst (open_wb p s))) p = Some (File [])).
Proof.
  intros part p s B. unfold open_wb. destruct (look s (removelast p)) as [[|c]|] eqn:E; try (cbn; split; [exact I|discriminate]).
  assert (Q : parent_ok s p). { intros a x F. subst p. rewrite removelast_snoc in E. right. exact E. }
  assert (G : look (store s p (File [])) p = Some (File [])) by (rewrite look_store; destruct (path_dec p p); congruence).
  destruct (look s p) as [[|c]|] eqn:F; cbn; split; try exact I; try discriminate; try (intros _; exact G); (split; [split; [cbn; split; [congruence|exact Q]|exact B]|exact I]).
Qed.
Lemma write_along : forall part p c c0 s, before part p -> look s p = Some (File c0) ->
  along (proper part) s (map (Append p) c) /\ forall q, look (effects s (map (Append p) c)) q = if path_dec p q then Some (File (c0 ++ c)) else look s q.
Proof.
  intros part p. induction c as [|x c IH]; intros c0 s B H.
  - cbn [map along effects fold_left]. split; [exact I|]. intros q. rewrite app_nil_r. destruct (path_dec p q); [congruence|reflexivity].
  - cbn [map along effects fold_left]. assert (H1 : look (effect s (Append p x)) p = Some (File (c0 ++ [x]))).
    { cbn. rewrite look_store, H. destruct (path_dec p p); congruence. }
    destruct (IH _ _ B H1) as [A L]. split.
    + split; [|exact A]. split; [cbn; exists c0; exact H|exact B].
    + intros q. fold (effects (effect s (Append p x)) (map (Append p) c)). rewrite L, <- app_assoc. cbn [app]. destruct (path_dec p q) as [E|E]; [reflexivity|].
      cbn. rewrite look_store. destruct (path_dec p q); [congruence|reflexivity].
Qed.

Lemma target_plain : forall p root, ~ In (lit "..") p -> target root p = root ++ p.
Proof.
  unfold target. induction p as [|n p IH]; intros root H; cbn [up_from]; [symmetry; apply app_nil_r|].
  destruct (list_eq_dec ascii_dec n (lit "..")) as [E|E]; [exfalso; apply H; left; exact E|]. rewrite IH; [rewrite <- app_assoc; reflexivity|]. intros F. apply H. right. exact F.
Qed.
Lemma removelast_app' : forall (A : Type) (a b : list A), b <> [] -> removelast (a ++ b) = a ++ removelast b.
Proof. intros. apply removelast_app. assumption. Qed.

Lemma extract_member_along : forall part m s, plain (fst m) -> along (proper part) s (fst (extract_member part m s)).
Proof.
  intros part [p oc] s [Np Hp]. cbn [fst] in *. unfold extract_member. cbn [fst snd]. rewrite (target_plain p part Hp).
  rewrite (removelast_app' _ part p Np). destruct (path_snoc p Np) as (a & x & ->). rewrite removelast_snoc.
  assert (B : before part (part ++ a ++ [x])). { exists (a ++ [x]). split; [destruct a; discriminate|reflexivity]. }
  destruct (make_path_along part (part ++ a) [] s (or_introl eq_refl)) as [A O].
  { intros q Q. cbn in Q. apply (mkdir_inside part a q Q). }
  apply along_bind; [exact A|]. intros [] E. specialize (O E). cbn [app] in O.
  set (s1 := effects s (fst (make_path [] (part ++ a) s))) in *. destruct oc as [c|].
  - destruct (open_wb_along part (part ++ a ++ [x]) s1 B) as [A1 O1]. apply along_bind; [exact A1|]. intros [] E1. specialize (O1 E1).
    cbn [write_all fst]. apply (write_along part _ c [] _ B O1).
  - apply along_bind; [exact I|]. intros e E1. cbn in E1 |- *. destruct (look s1 (part ++ a ++ [x])) as [n|] eqn:F; injection E1 as <-; cbn; [exact I|].
    split; [|exact I]. split; [|right; exact B]. split; [exact F|]. intros b y G. rewrite app_assoc in G. apply snoc_inj in G. destruct G as [<- _]. exact O.
Qed.
Lemma extract_all_along : forall part ms s, Forall (fun m => plain (fst m)) ms -> along (proper part) s (fst (extract_all part ms s)).
Proof.
  intros part. induction ms as [|m ms IH]; intros s P; [exact I|]. inversion P; subst. cbn [extract_all]. apply along_bind; [apply extract_member_along; assumption|].
  intros [] _. apply IH. assumption.
Qed.

Section Part.
Variables (net : text -> res (res text)) (untar : text -> list member * res unit) (order : list path -> list path).

Lemma download_along : forall home archive url s, no_climbing net untar url -> sound s -> along (proper home) s (fst (download net untar home archive url s)).
Proof.
  intros home archive url s plainly S. unfold download.
  assert (B : before home (home ++ [archive])) by (exists [archive]; split; [discriminate|reflexivity]).
  apply along_bind.
  { unfold makedirs. apply along_bind; [exact I|]. intros e E. cbn in E |- *. destruct e; [exact I|].
    apply make_path_along; [left; reflexivity|]. intros a Q. cbn in Q. apply (mkdir_inside home [] a). rewrite app_nil_r. exact Q. }
  intros [] E. assert (S1 : sound (effects s (fst (makedirs home s)))).
  { apply (proper_sound home); [exact S|]. unfold makedirs. apply along_bind; [exact I|]. intros e E'. cbn in E' |- *. destruct e; [exact I|].
    apply make_path_along; [left; reflexivity|]. intros a Q. cbn in Q. apply (mkdir_inside home [] a). rewrite app_nil_r. exact Q. }
  set (s1 := effects s (fst (makedirs home s))) in *. clearbody s1. clear E S s.
  apply along_bind; [cbn; split; [split; exact I|exact I]|]. intros [] _. cbn [tell fst effects fold_left effect].
  apply along_bind; [exact I|]. intros answer Ea. cbn [lift fst snd effects fold_left] in Ea |- *.
  destruct (open_wb_along home (home ++ [archive]) s1 B) as [A1 O1]. apply along_bind; [exact A1|]. intros [] E1. specialize (O1 E1).
  pose proof (proper_sound home _ _ S1 A1) as S2. set (s2 := effects s1 (fst (open_wb (home ++ [archive]) s1))) in *. clearbody s2.
  apply along_bind; [exact I|]. intros bytes Eb. cbn [lift fst snd effects fold_left] in Eb |- *. subst answer. specialize (plainly bytes Ea).
  destruct (write_along home (home ++ [archive]) bytes [] s2 B O1) as [A3 O3].
  apply along_bind; [exact A3|]. intros [] _. cbn [write_all fst].
  pose proof (proper_sound home _ _ S2 A3) as S3. set (s3 := effects s2 (map (Append (home ++ [archive])) bytes)) in *. clearbody s3.
  apply along_bind; [exact I|]. intros content Ec. cbn [read_file fst snd effects fold_left] in Ec |- *.
  rewrite O3 in Ec. destruct (path_dec (home ++ [archive]) (home ++ [archive])) as [_|Z]; [|congruence]. injection Ec as <-. cbn [app].
  apply along_bind; [apply extract_all_along, plainly|]. intros [] _.
  pose proof (proper_sound home _ _ S3 (extract_all_along home (fst (untar bytes)) s3 plainly)) as S4.
  set (s4 := effects s3 (fst (extract_all home (fst (untar bytes)) s3))) in *. clearbody s4.
  apply along_bind; [exact I|]. intros [] _. cbn [lift fst effects fold_left].
  unfold remove_file. destruct (look s4 (home ++ [archive])) as [[|c]|] eqn:F; cbn; try exact I.
  split; [|exact I]. split; [|exact B]. cbn. intros q Q [r ->]. destruct r as [|y r]; [apply app_nil_r|].
  destruct (look s4 ((home ++ [archive]) ++ y :: r)) as [n|] eqn:G; [|congruence]. apply (sound_above s4 S4) in G; [congruence|destruct home; discriminate|discriminate].
Qed.
Lemma found_along : forall home archive url s, no_climbing net untar url -> sound s -> along (proper home) s (fst (found_or home (download net untar home archive url) s)).
Proof.
  intros home archive url s plainly S. unfold found_or. apply along_bind; [exact I|]. intros e _. cbn [exists_ fst effects fold_left]. destruct e; [exact I|]. apply download_along; assumption.
Qed.

Hypothesis orderly : removes_children_first order.
Definition homely (home : path) (s : fs) (e : event) : Prop := legal s e /\ (inside home e \/ e = Remove home).
Lemma homely_sound : forall part l s, sound s -> along (homely part) s l -> sound (effects s l).
Proof. intros part l s S A. apply (along_preserves (homely part) sound); [|exact S|exact A]. intros s0 e S0 [L _]. apply legal_sound; assumption. Qed.
Lemma look_removes : forall l s q, look (effects s (map Remove l)) q = if in_dec path_dec q l then None else look s q.
Proof.
  induction l as [|p l IH]; intros s q; [reflexivity|]. cbn [map effects fold_left effect]. fold (effects (drop s p) (map Remove l)). rewrite IH, look_drop.
  destruct (in_dec path_dec q l) as [E|E], (in_dec path_dec q (p :: l)) as [F|F], (path_dec p q) as [G|G]; try reflexivity; exfalso; cbn in F; tauto.
Qed.
Lemma in_below : forall s p q, In q (below s p) <-> look s q <> None /\ starts p q.
Proof. intros s p q. unfold below. rewrite filter_In, within_iff, <- look_some_in. tauto. Qed.
Lemma nodup_below : forall s p, sound s -> NoDup (below s p).
Proof. intros s p [D _]. unfold below. apply NoDup_filter. exact D. Qed.
Lemma rmtree_along : forall home s, sound s -> along (homely home) s (fst (rmtree order home s)).
Proof.
  intros home s S. unfold rmtree. destruct (look s home) as [[|c]|] eqn:E; try exact I. cbn [fst].
  destruct (orderly (below s home) (nodup_below s home S)) as [P O].
  enough (X : forall l2 l1, l1 ++ l2 = order (below s home) -> along (homely home) (effects s (map Remove l1)) (map Remove l2)) by exact (X _ [] eq_refl).
  induction l2 as [|p l2 IH]; intros l1 F; [exact I|]. cbn [map along]. split.
  - assert (Ip : In p (below s home)). { eapply Permutation_in; [exact P|]. rewrite <- F. apply in_or_app. right. left. reflexivity. }
    apply in_below in Ip. destruct Ip as [Lp Sp]. split.
    + intros q Q T. rewrite look_removes in Q. destruct (in_dec path_dec q l1) as [Y|Y]; [congruence|].
      destruct (path_dec q p) as [Z|Z]; [exact Z|exfalso]. apply Y.
      assert (Iq : In q (below s home)) by (apply in_below; split; [exact Q|eapply starts_trans; eassumption]).
      eapply Permutation_in in Iq; [|apply Permutation_sym, P]. apply In_nth_error in Iq. destruct Iq as [j J].
      assert (K : nth_error (order (below s home)) (length l1) = Some p). { rewrite <- F. rewrite nth_error_app2 by lia. rewrite Nat.sub_diag. reflexivity. }
      assert (Bq : before p q) by (apply starts_before; [exact T|congruence]).
      pose proof (O _ _ _ _ K J Bq) as LT. rewrite <- F, nth_error_app1 in J by exact LT. apply nth_error_In in J. exact J.
    + destruct (path_dec home p) as [Z|Z]; [right; congruence|left]. apply starts_before; assumption.
  - specialize (IH (l1 ++ [p])). rewrite <- app_assoc in IH. specialize (IH F). rewrite map_app, effects_app in IH. exact IH.
Qed.
Lemma along_proper_homely : forall home part l s, starts home part -> along (proper part) s l -> along (homely home) s l.
Proof.
  intros home part l s T. apply along_impl. intros s0 e [L I]. split; [exact L|left]. destruct T as [t ->].
  destruct e as [u|p|p|p c|p]; cbn in I |- *; try exact I.
  - destruct I as [I|I]; [apply (mkdir_inside home t p I)|right]. eapply starts_before_trans; [apply starts_app|exact I].
  - eapply starts_before_trans; [apply starts_app|exact I].
  - eapply starts_before_trans; [apply starts_app|exact I].
  - eapply starts_before_trans; [apply starts_app|exact I].
Qed.
Lemma makedirs_along : forall home s, along (homely home) s (fst (makedirs home s)).
Proof.
  intros home s. apply (along_proper_homely home home); [apply starts_refl|]. unfold makedirs. apply along_bind; [exact I|]. intros e E'. cbn in E' |- *. destruct e; [exact I|].
  apply make_path_along; [left; reflexivity|]. intros a Q. cbn in Q. apply (mkdir_inside home [] a). rewrite app_nil_r. exact Q.
Qed.
Lemma along_silent : forall P (A : Type) (m : io A) s, fst (m s) = [] -> along P s (fst (m s)).
Proof. intros P A m s E. rewrite E. exact I. Qed.
Lemma fetch_along : forall d fold top dm force wm s, no_climbing net untar (d_url d) -> no_climbing net untar (d_models_url d) -> sound s -> along (homely (top ++ [d_name d])) s (fst (fetch net untar order d fold top dm force wm s)).
Proof.
  intros d fold top dm force wm s C1 C2 S. unfold fetch. set (home := top ++ [d_name d]).
  apply along_bind; [exact I|]. intros here _. cbn [exists_ fst effects fold_left].
  destruct (negb dm && negb here); [exact I|].
  match goal with |- along _ _ (fst ((match fold with _ => _ end) _)) => idtac | |- _ => idtac end.
  assert (X : along (homely home) s (fst (io_bind (if force then step here' <- exists_ home; (if here' then step _ <- rmtree order home; makedirs home else ret tt) else ret tt)
     (fun _ => step _ <- found_or (home ++ [lit "dataset"]) (download net untar (home ++ [lit "dataset"]) (d_archive d) (d_url d));
      step license <- match d_license d with Some f => read_file ((home ++ [lit "dataset"]) ++ f) | None => ret (lit "Please, check the terms of use before using the dataset. Here the link: " ++ d_blog d) end;
      step models <- (if wm then step _ <- found_or (home ++ [lit "models"]) (download net untar (home ++ [lit "models"]) (d_models_archive d) (d_models_url d));
                       step l <- walk ((home ++ [lit "models"]) ++ fold_dir d fold); ret (Some l) else ret None);
      ret (mkFiles ((home ++ [lit "dataset"]) ++ fold_dir d fold ++ d_train d) ((home ++ [lit "dataset"]) ++ fold_dir d fold ++ d_test d)
             (match d_validation d with Some f => Some ((home ++ [lit "dataset"]) ++ fold_dir d fold ++ f) | None => None end) license models)) s))).
  2: { unfold fold_dir in X. destruct fold as [k|]; [|exact X]. destruct (d_subfolder d) as [f|]; [exact X|exact I]. }
  assert (X1 : along (homely home) s (fst ((if force then step here' <- exists_ home; (if here' then step _ <- rmtree order home; makedirs home else ret tt) else ret tt) s))).
  { destruct force; [|exact I]. apply along_bind; [exact I|]. intros here' _. cbn [exists_ fst effects fold_left]. destruct here'; [|exact I].
    apply along_bind; [apply rmtree_along, S|]. intros [] _. apply makedirs_along. }
  apply along_bind; [exact X1|]. intros [] _.
  pose proof (homely_sound home _ _ S X1) as S1. set (s1 := effects s _) in *. clearbody s1.
  pose proof (found_along (home ++ [lit "dataset"]) (d_archive d) (d_url d) s1 C1 S1) as X2.
  apply along_bind; [apply (along_proper_homely home (home ++ [lit "dataset"])); [apply starts_app|exact X2]|]. intros [] _.
  pose proof (proper_sound _ _ _ S1 X2) as S2. set (s2 := effects s1 _) in *. clearbody s2.
  apply along_bind; [destruct (d_license d); exact I|]. intros license _.
  replace (effects s2 _) with s2 by (destruct (d_license d); reflexivity).
  apply along_bind; [|intros models _; exact I]. destruct wm; [|exact I].
  pose proof (found_along (home ++ [lit "models"]) (d_models_archive d) (d_models_url d) s2 C2 S2) as X3.
  apply along_bind; [apply (along_proper_homely home (home ++ [lit "models"])); [apply starts_app|exact X3]|]. intros [] _.
  apply along_bind; [exact I|]. intros l _. exact I.
Qed.
End Part.
