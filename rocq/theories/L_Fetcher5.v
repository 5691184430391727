(** Histories of calls and crashes; isolation; load_dataset. *)
From Coq Require Import Ascii String List ZArith Bool Lia Permutation.
From Verif Require Import Base M_Text M_Fetcher S_Fetcher L_Fetcher L_Fetcher2 L_Fetcher3 L_Fetcher4.
Import ListNotations.

Lemma homely_open_way : forall home l s, along (homely home) s l -> open_way s home -> open_way (effects s l) home.
Proof.
  intros home. induction l as [|e l IH]; intros s A W; [exact W|]. cbn [along effects fold_left] in *. destruct A as [[L I] A].
  apply IH; [exact A|]. intros a c Ha Na H.
  assert (NB : ~ before home a). { intros B. apply before_length in B. apply starts_length in Ha. lia. }
  destruct I as [I| ->].
  - destruct e as [u|q|q|q b|q]; cbn in I, L, H; try (rewrite ?look_store, ?look_drop in H; destruct (path_dec q a) as [E|E]; [subst q; try discriminate; tauto|]); apply (W a c Ha Na H).
  - cbn in H. rewrite look_drop in H. destruct (path_dec home a); [discriminate|]. apply (W a c Ha Na H).
Qed.
Lemma homely_frame : forall home l s, along (homely home) s l -> forall q, ~ starts home q ->
  look (effects s l) q = look s q \/ (look s q = None /\ look (effects s l) q = Some Dir /\ before q home).
Proof.
  intros home. induction l as [|e l IH]; intros s A q N; [left; reflexivity|]. cbn [along effects fold_left] in *. destruct A as [[L I] A].
  change (fold_left effect l (effect s e)) with (effects (effect s e) l). specialize (IH _ A q N).
  assert (X : look (effect s e) q = look s q \/ (look s q = None /\ look (effect s e) q = Some Dir /\ before q home)).
  { assert (B : ~ before home q) by (intros B; apply N, before_starts, B). destruct I as [I| ->].
    - destruct e as [u|p|p|p c|p]; cbn in I, L |- *; [left; reflexivity|..]; rewrite ?look_store, ?look_drop; (destruct (path_dec p q) as [E|E]; [subst p|left; reflexivity]); try tauto.
      right. destruct L as [L _]. repeat split; [exact L|]. destruct I as [I|I]; [|tauto]. apply starts_before; [exact I|]. intros ->. apply N, starts_refl.
    - cbn. rewrite look_drop. destruct (path_dec home q) as [E|E]; [subst; exfalso; apply N, starts_refl|left; reflexivity]. }
  destruct IH as [IH|(I1 & I2 & I3)], X as [X|(X1 & X2 & X3)].
  - left. congruence.
  - right. repeat split; [exact X1|congruence|exact X3].
  - right. repeat split; [congruence|exact I2|exact I3].
  - congruence.
Qed.

Section History.
Variables (d : entry) (top : path).
Lemma ask_along : forall r s, fair r -> sound s -> along (homely (data_dir d top)) s (fst (ask d top r s)).
Proof. intros r s [F O] S. apply fetch_along; [exact O|apply F|apply F|exact S]. Qed.
Lemma left_after_kept : forall r s k, fair r -> sound s -> open_way s (data_dir d top) -> sound (left_after (ask d top r) s k) /\ open_way (left_after (ask d top r) s k) (data_dir d top).
Proof.
  intros r s k F S W. unfold left_after. pose proof (along_firstn _ _ _ k (ask_along r s F S)) as A. split; [eapply homely_sound; eassumption|apply homely_open_way; assumption].
Qed.
Lemma reached_kept : forall (ok : request -> Prop) s s', (forall r, ok r -> fair r) -> reached d top ok s s' -> sound s -> open_way s (data_dir d top) -> sound s' /\ open_way s' (data_dir d top).
Proof.
  intros ok s s' F R S W. induction R as [|s1 r k R IH Hr]; [split; assumption|]. destruct IH as [S1 W1]. apply left_after_kept; auto.
Qed.

Lemma no_repair_along : forall r s, fair r -> r_force r = false -> sound s -> look s (dataset_dir d top) <> None -> along (proper (models_dir d top)) s (fst (ask d top r s)).
Proof.
  intros [net untar order fold dm force wm] s [F O] Hf S N. cbn in Hf, F, O. unfold ask. cbn [r_net r_untar r_order r_fold r_if_missing r_force r_models]. subst force.
  destruct (dm || match look s (data_dir d top) with Some _ => true | None => false end) eqn:D.
  2: { apply orb_false_iff in D. destruct D as [-> D]. unfold fetch, io_bind at 1, exists_ at 1. fold (data_dir d top). rewrite D. exact I. }
  destruct (match fold, d_subfolder d with Some _, None => true | _, _ => false end) eqn:K.
  { destruct fold as [k|]; [|discriminate]. unfold fetch, io_bind at 1, exists_ at 1. fold (data_dir d top). destruct (d_subfolder d); [discriminate|].
    destruct (negb dm && negb (match look s (data_dir d top) with Some _ => true | None => false end)); exact I. }
  rewrite fetch_eq.
  - unfold clearing. unfold io_bind at 1. cbn [ret effects fold_left]. unfold rest. unfold io_bind at 1. rewrite (found_present _ _ _ N). cbn [effects fold_left].
    match goal with |- along _ _ (fst (let (l', r) := (let (_, _) := ?m s in _) in _)) => assert (A : along (proper (models_dir d top)) s (fst (m s))) end.
    2: { match type of A with along _ _ (fst (?m s)) => destruct (m s) as [l x] end. exact A. }
    apply along_bind; [unfold license_io; destruct (d_license d); exact I|]. intros license _.
    replace (effects s _) with s by (unfold license_io; destruct (d_license d); reflexivity).
    apply along_bind; [|intros models _; exact I]. unfold models_io. destruct wm; [|exact I].
    apply along_bind; [apply found_along; [apply F|exact S]|]. intros [] _. apply along_bind; [exact I|]. intros l _. exact I.
  - unfold fold_known. destruct fold; [|left; reflexivity]. right. destruct (d_subfolder d); [discriminate|discriminate].
  - apply orb_true_iff in D. destruct D as [D|D]; [left; exact D|right]. destruct (look s (data_dir d top)); [discriminate|discriminate].
Qed.
Lemma no_repair : forall r s k, fair r -> r_force r = false -> sound s -> look s (dataset_dir d top) <> None -> same_below (dataset_dir d top) s (left_after (ask d top r) s k).
Proof.
  intros r s k F Hf S N q T. unfold left_after. destruct (siblings d top q T). apply (inside_frame (models_dir d top)); [|assumption|assumption].
  apply along_firstn. apply no_repair_along; assumption.
Qed.
Lemma no_repair_ever : forall s s', sound s -> open_way s (data_dir d top) -> look s (dataset_dir d top) <> None ->
  reached d top (fun r => fair r /\ r_force r = false) s s' -> same_below (dataset_dir d top) s s'.
Proof.
  intros s s' S W N R. induction R as [|s1 r k R IH [F Hf]]; [intros q _; reflexivity|]. intros q T.
  destruct (reached_kept _ s s1 (fun r H => proj1 H) R S W) as [S1 W1].
  rewrite (no_repair r s1 k F Hf S1); [apply IH, T| |exact T]. rewrite (IH _ (starts_refl _)). exact N.
Qed.
(** A finished call is the crash after its last change. *)
Lemma left_all : forall (A : Type) (m : io A) s, left_after m s (length (fst (m s))) = after m s.
Proof. intros. unfold left_after, after. rewrite firstn_all. reflexivity. Qed.
Lemma crash_isolation : forall r s k, fair r -> sound s -> forall q, ~ starts (data_dir d top) q ->
  look (left_after (ask d top r) s k) q = look s q \/ (look s q = None /\ look (left_after (ask d top r) s k) q = Some Dir /\ before q (data_dir d top)).
Proof. intros r s k F S q N. unfold left_after. apply (homely_frame (data_dir d top)); [|exact N]. apply along_firstn, ask_along; assumption. Qed.
Lemma offline_missing : forall r s, r_if_missing r = false -> look s (data_dir d top) = None -> ask d top r s = ([], Err IOError).
Proof. intros r s H N. unfold ask, fetch, io_bind, exists_. fold (data_dir d top). rewrite H, N. reflexivity. Qed.
Lemma offline_present : forall r s, r_force r = false -> look s (dataset_dir d top) <> None -> (r_models r = false \/ look s (models_dir d top) <> None) -> fst (ask d top r s) = [].
Proof.
  intros [net untar order fold dm force wm] s Hf N M. cbn in Hf, M. unfold ask. cbn [r_net r_untar r_order r_fold r_if_missing r_force r_models]. subst force.
  destruct (dm || match look s (data_dir d top) with Some _ => true | None => false end) eqn:D.
  2: { apply orb_false_iff in D. destruct D as [-> D]. unfold fetch, io_bind at 1, exists_ at 1. fold (data_dir d top). rewrite D. reflexivity. }
  destruct (match fold, d_subfolder d with Some _, None => true | _, _ => false end) eqn:K.
  { destruct fold as [k|]; [|discriminate]. unfold fetch, io_bind at 1, exists_ at 1. fold (data_dir d top). destruct (d_subfolder d); [discriminate|].
    destruct (negb dm && negb (match look s (data_dir d top) with Some _ => true | None => false end)); reflexivity. }
  rewrite fetch_eq.
  - unfold clearing. unfold io_bind at 1. cbn [ret effects fold_left]. unfold rest. unfold io_bind at 1. rewrite (found_present _ _ _ N). cbn [effects fold_left].
    unfold license_io, models_io. unfold io_bind at 1.
    assert (Y : fst ((if wm then step _ <- found_or (models_dir d top) (download net untar (models_dir d top) (d_models_archive d) (d_models_url d)); step l <- walk (models_dir d top ++ fold_dir d fold); ret (Some l) else ret None) s) = []).
    { destruct wm; [|reflexivity]. destruct M as [M|M]; [discriminate|]. unfold io_bind at 1. rewrite (found_present _ _ _ M). reflexivity. }
    destruct (d_license d) as [f|].
    + unfold read_file. destruct (look s (dataset_dir d top ++ f)) as [[|c]|]; try reflexivity. cbn [effects fold_left]. unfold io_bind at 1. match type of Y with fst ?x = _ => destruct x as [l [o|e]] end; cbn in Y |- *; subst l; reflexivity.
    + cbn [ret effects fold_left]. unfold io_bind at 1. match type of Y with fst ?x = _ => destruct x as [l [o|e]] end; cbn in Y |- *; subst l; reflexivity.
  - unfold fold_known. destruct fold; [|left; reflexivity]. right. destruct (d_subfolder d); [discriminate|discriminate].
  - apply orb_true_iff in D. destruct D as [D|D]; [left; exact D|right]. destruct (look s (data_dir d top)); [discriminate|discriminate].
Qed.
Lemma no_folds : forall r s k, r_fold r = Some k -> d_subfolder d = None -> exists e, ask d top r s = ([], Err e).
Proof.
  intros r s k H N. unfold ask, fetch, io_bind at 1, exists_ at 1. rewrite H, N. destruct (negb (r_if_missing r) && negb _); eexists; reflexivity.
Qed.
End History.

(** load_dataset *)
Lemma load_one : forall (D : Type) (parse : text -> res D) s dd ms q c v, holds s dd ms -> In (q, Some c) ms -> q <> [] -> parse c = Ok v -> load parse (dd ++ q) s = ([], Ok v).
Proof.
  intros D parse s dd ms q c v [_ H] I Nq P. unfold load, io_bind, read_file, lift. rewrite (proj2 (H q (File c) Nq) I). cbn. rewrite P. reflexivity.
Qed.
Lemma loads_ok : forall (D : Type) (parse : text -> res D) d top fold ms tr te va license names s, clean ms -> holds s (dataset_dir d top) ms -> archived parse d fold ms tr te va ->
  (step tr <- load parse (f_train (files_of d top fold license names)); step te <- load parse (f_test (files_of d top fold license names));
   step va <- match f_validation (files_of d top fold license names) with Some p => step v <- load parse p; ret (Some v) | None => ret None end;
   ret (Some (mkContainer tr te va license names))) s = ([], Ok (Some (mkContainer tr te va license names))).
Proof.
  intros D parse d top fold ms tr te va license names s [P _] H ((c1 & I1 & P1) & (c2 & I2 & P2) & V). rewrite Forall_forall in P.
  cbn [f_train f_test f_validation files_of located]. unfold io_bind at 1.
  rewrite (load_one D parse s _ ms _ c1 tr H I1 (proj1 (P _ I1)) P1). cbn [effects fold_left app]. unfold io_bind at 1.
  rewrite (load_one D parse s _ ms _ c2 te H I2 (proj1 (P _ I2)) P2). cbn [effects fold_left app].
  destruct (d_validation d) as [f|], va as [v|]; try contradiction; [|reflexivity]. destruct V as (c3 & I3 & P3). unfold io_bind at 1 2.
  rewrite (load_one D parse s _ ms _ c3 v H I3 (proj1 (P _ I3)) P3). reflexivity.
Qed.
Lemma silent_bind : forall (A B : Type) (m : io A) (f : A -> io B) s a, m s = ([], Ok a) -> io_bind m f s = f a s.
Proof. intros A B m f s a H. unfold io_bind. rewrite H. cbn [effects fold_left app]. destruct (f a s). reflexivity. Qed.
Lemma bind_silent_end : forall (A B : Type) (m : io A) (f : A -> io B) s l a b, m s = (l, Ok a) -> f a (effects s l) = ([], Ok b) -> io_bind m f s = (l, Ok b).
Proof. intros A B m f s l a b H F. unfold io_bind. rewrite H, F, app_nil_r. reflexivity. Qed.

Section Load.
Variables (D : Type) (parse : text -> res D) (catalogue : list (text * entry)) (nm : text) (d : entry) (top : path).
Hypothesis known : in_catalogue catalogue nm d.

Lemma load_unknown : forall net untar order nm' fold dm force wm s, (forall e, In e catalogue -> fst e <> nm') ->
  load_dataset net untar order parse catalogue top nm' fold dm force wm s = ([], Ok None).
Proof.
  intros. unfold load_dataset. replace (find _ catalogue) with (@None (text * entry)); [reflexivity|]. symmetry. clear known. induction catalogue as [|e l IH]; [reflexivity|]. cbn [find].
  match goal with |- context [list_eq_dec ascii_dec ?a ?b] => destruct (list_eq_dec ascii_dec a b) as [E|E] end; [exfalso; apply (H e); [left; reflexivity|exact E]|]. apply IH. intros e' I. apply H. right. exact I.
Qed.
(** The call when the directory of all data sets exists. *)
Lemma load_eq : forall net untar order fold dm force wm s, look s top <> None ->
  load_dataset net untar order parse catalogue top nm fold dm force wm s =
  (step f <- fetch net untar order d fold top dm force wm;
   step tr <- load parse (f_train f); step te <- load parse (f_test f);
   step va <- match f_validation f with Some p => step v <- load parse p; ret (Some v) | None => ret None end;
   ret (Some (mkContainer tr te va (f_license f) (f_models f)))) s.
Proof.
  intros net untar order fold dm force wm s N. unfold load_dataset. match goal with |- context [find ?f catalogue] => replace (find f catalogue) with (Some (nm, d)) by (symmetry; exact known) end. unfold io_bind at 1. unfold exists_ at 1. destruct (look s top); [|congruence]. cbn [effects fold_left app].
  unfold io_bind at 1. cbn [ret effects fold_left app]. match goal with |- (let (_, _) := (let (_, _) := ?x in _) in _) = _ => destruct x; reflexivity end.
Qed.
Lemma load_finish : forall net untar order fold dm force wm s l license names ms tr te va, look s top <> None ->
  fetch net untar order d fold top dm force wm s = (l, Ok (files_of d top fold license names)) -> clean ms -> holds (effects s l) (dataset_dir d top) ms -> archived parse d fold ms tr te va ->
  load_dataset net untar order parse catalogue top nm fold dm force wm s = (l, Ok (Some (mkContainer tr te va license names))).
Proof.
  intros net untar order fold dm force wm s l license names ms tr te va N F C H A. rewrite load_eq by exact N. eapply bind_silent_end; [exact F|].
  cbn [f_license f_models files_of located]. eapply loads_ok; eassumption.
Qed.
End Load.

Section Main.
Variables (d : entry) (top : path).
Lemma C61_main : forall s0 s, sound s0 -> open_way s0 (data_dir d top) -> reached d top fair s0 s ->
  forall r ms mms, servers (r_net r) (r_untar r) d ms mms -> removes_children_first (r_order r) -> fold_known d (r_fold r) ->
  (r_if_missing r = true \/ look s (data_dir d top) <> None) -> (r_force r = true \/ look s (dataset_dir d top) = None) ->
  exists license names, snd (ask d top r s) = Ok (located d top (r_fold r) license names) /\ holds (after (ask d top r) s) (dataset_dir d top) ms /\
    (r_models r = true -> (r_force r = true \/ look s (models_dir d top) = None) -> holds (after (ask d top r) s) (models_dir d top) mms) /\
    (if r_models r then exists l, names = Some l /\ lists_files (after (ask d top r) s) (models_dir d top ++ fold_dir d (r_fold r)) l else names = None) /\
    licence (after (ask d top r) s) d top license.
Proof.
  intros s0 s S0 W0 R r ms mms V O K D M. destruct (reached_kept d top fair s0 s (fun r H => H) R S0 W0) as [S W].
  destruct r as [net untar order fold dm force wm]. cbn [r_net r_untar r_order r_fold r_if_missing r_force r_models] in *. unfold after, ask. cbn [r_net r_untar r_order r_fold r_if_missing r_force r_models].
  destruct force.
  - destruct (force_ok net untar order d top ms mms fold dm wm s V O K S W D) as (l & license & names & E & _ & H1 & H2 & H3 & H4 & H5 & _). rewrite E. cbn [fst snd].
    exists license, names. split; [reflexivity|]. split; [exact H1|]. split; [intros Hw _; apply H2, Hw|]. split; [destruct wm; auto|exact H5].
  - destruct M as [M|M]; [discriminate|]. rewrite (fetch_eq net untar order d top fold dm false wm s K D). unfold clearing. rewrite (silent_bind _ _ (ret tt) _ s tt eq_refl).
    destruct (rest_ok net untar d top ms mms fold wm s V S W (or_introl M)) as (l & license & names & E & _ & H1 & _ & H3 & _ & _ & H6 & H7 & H8 & _). rewrite E. cbn [fst snd].
    exists license, names. split; [reflexivity|]. split; [apply H1, M|]. split; [intros Hw [X|X]; [discriminate|apply H3; assumption]|]. split; [destruct wm; auto|exact H8].
Qed.
Lemma C61_kept_lemma : forall s0 s, sound s0 -> open_way s0 (data_dir d top) -> reached d top fair s0 s -> look s (dataset_dir d top) <> None ->
  forall s', reached d top (fun r => fair r /\ r_force r = false) s s' -> same_below (dataset_dir d top) s s'.
Proof. intros s0 s S0 W0 R N s' R'. destruct (reached_kept d top fair s0 s (fun r H => H) R S0 W0) as [S W]. apply no_repair_ever; assumption. Qed.
Lemma C61_force_clears_lemma : forall s0 s, sound s0 -> open_way s0 (data_dir d top) -> reached d top fair s0 s ->
  forall r ms mms, servers (r_net r) (r_untar r) d ms mms -> removes_children_first (r_order r) -> fold_known d (r_fold r) ->
  (r_if_missing r = true \/ look s (data_dir d top) <> None) -> r_force r = true ->
  forall x, look (after (ask d top r) s) (data_dir d top ++ [x]) <> None -> x = lit "dataset" \/ x = lit "models".
Proof.
  intros s0 s S0 W0 R r ms mms V O K D Hf. destruct (reached_kept d top fair s0 s (fun r H => H) R S0 W0) as [S W].
  destruct r as [net untar order fold dm force wm]. cbn [r_net r_untar r_order r_fold r_if_missing r_force r_models] in *. unfold after, ask. cbn [r_net r_untar r_order r_fold r_if_missing r_force r_models]. subst force.
  destruct (force_ok net untar order d top ms mms fold dm wm s V O K S W D) as (l & license & names & E & _ & _ & _ & _ & _ & _ & H). rewrite E. exact H.
Qed.
(** The first call of load_dataset, and the later ones. *)
Variables (D : Type) (parse : text -> res D) (catalogue : list (text * entry)) (nm : text).
Hypothesis known : in_catalogue catalogue nm d.
Lemma C74_first_lemma : forall s, sound s -> open_way s (data_dir d top) -> look s top <> None ->
  forall r ms mms tr te va, servers (r_net r) (r_untar r) d ms mms -> removes_children_first (r_order r) -> fold_known d (r_fold r) ->
  (r_if_missing r = true \/ look s (data_dir d top) <> None) -> (r_force r = true \/ look s (dataset_dir d top) = None) -> archived parse d (r_fold r) ms tr te va ->
  exists license names, snd (request_load parse catalogue top nm r s) = Ok (Some (mkContainer tr te va license names)) /\
    holds (after (request_load parse catalogue top nm r) s) (dataset_dir d top) ms /\ fst (request_load parse catalogue top nm r s) = fst (ask d top r s) /\
    (if r_models r then exists l, names = Some l /\ lists_files (after (request_load parse catalogue top nm r) s) (models_dir d top ++ fold_dir d (r_fold r)) l else names = None) /\
    licence (after (request_load parse catalogue top nm r) s) d top license.
Proof.
  intros s S W N r ms mms tr te va V O K Dm M A.
  destruct (C61_main s s S W (reached_start _ _ _ _) r ms mms V O K Dm M) as (license & names & E & H & _ & F & G).
  destruct (ask d top r s) as [l x] eqn:Q. cbn [snd] in E. subst x. unfold after in H, F, G. rewrite Q in H, F, G. cbn [fst] in H, F, G.
  assert (L : request_load parse catalogue top nm r s = (l, Ok (Some (mkContainer tr te va license names)))).
  { unfold request_load. eapply (load_finish D parse catalogue nm d top known); [exact N|exact Q| |exact H|exact A]. apply V. }
  unfold after. rewrite L. exists license, names. cbn [fst snd]. split; [reflexivity|]. split; [exact H|]. split; [reflexivity|]. split; [exact F|exact G].
Qed.
Lemma C74_later_lemma : forall s, sound s -> open_way s (data_dir d top) -> look s top <> None ->
  forall r ms mms tr te va, clean ms -> holds s (dataset_dir d top) ms -> holds s (models_dir d top) mms -> (forall f, d_license d = Some f -> f <> [] /\ exists c, In (f, Some c) ms) ->
  fold_known d (r_fold r) -> r_force r = false -> archived parse d (r_fold r) ms tr te va ->
  exists license names, request_load parse catalogue top nm r s = ([], Ok (Some (mkContainer tr te va license names))) /\
    (if r_models r then exists l, names = Some l /\ lists_files s (models_dir d top ++ fold_dir d (r_fold r)) l else names = None) /\ licence s d top license.
Proof.
  intros s S W N r ms mms tr te va C H Hm Lic K Hf A. destruct r as [net untar order fold dm force wm]. cbn [r_net r_untar r_order r_fold r_if_missing r_force r_models] in *. subst force.
  assert (Nh : look s (data_dir d top) <> None).
  { destruct H as [H _]. rewrite dd_eq in H. apply (sound_above s S) in H; [congruence|apply home_not_nil|discriminate]. }
  assert (Nd : look s (dataset_dir d top) <> None) by (destruct H as [H _]; congruence).
  assert (Nm : look s (models_dir d top) <> None) by (destruct Hm as [Hm _]; congruence).
  assert (Y : exists license, license_io d top s = ([], Ok license) /\ licence s d top license).
  { unfold license_io, licence. destruct (d_license d) as [f|]; [|eexists; split; reflexivity]. destruct (Lic f eq_refl) as (Nf & c & I). unfold read_file.
    rewrite (proj2 (proj2 H f (File c) Nf) I). eexists. split; reflexivity. }
  destruct Y as (license & Y & Y').
  assert (Z : exists names, models_io net untar d top fold wm s = ([], Ok names) /\ (if wm then exists l, names = Some l /\ lists_files s (models_dir d top ++ fold_dir d fold) l else names = None)).
  { unfold models_io. destruct wm; [|exists None; split; reflexivity]. rewrite (silent_bind _ _ _ _ s tt (found_present _ _ _ Nm)).
    destruct (walk_lists (models_dir d top ++ fold_dir d fold) s S) as (l & E & L). exists (Some l). split; [rewrite (silent_bind _ _ _ _ s l E); reflexivity|]. exists l. split; [reflexivity|exact L]. }
  destruct Z as (names & Z & Z'). exists license, names. split; [|split; [exact Z'|exact Y']]. unfold request_load. cbn [r_net r_untar r_order r_fold r_if_missing r_force r_models].
  eapply (load_finish D parse catalogue nm d top known); [exact N| |exact C|exact H|exact A].
  rewrite (fetch_eq net untar order d top fold dm false wm s K (or_intror Nh)). unfold clearing. rewrite (silent_bind _ _ (ret tt) _ s tt eq_refl). unfold rest.
  rewrite (silent_bind _ _ _ _ s tt (found_present _ _ _ Nd)), (silent_bind _ _ _ _ s license Y), (silent_bind _ _ _ _ s names Z). reflexivity.
Qed.
End Main.

(** load_dataset makes the directory of all data sets when it is missing. *)
Lemma C74_top_lemma : forall (D : Type) (parse : text -> res D) catalogue nm d top r s, in_catalogue catalogue nm d -> top <> [] -> sound s -> open_way s (data_dir d top) -> look s top = None ->
  exists l, sound (effects s l) /\ open_way (effects s l) (data_dir d top) /\ look (effects s l) top = Some Dir /\
  (forall q, ~ starts q top -> look (effects s l) q = look s q) /\
  request_load parse catalogue top nm r s = (l ++ fst (request_load parse catalogue top nm r (effects s l)), snd (request_load parse catalogue top nm r (effects s l))).
Proof.
  intros D parse catalogue nm d top r s known Nt S W N.
  destruct (make_path_ok top [] s) as (l & R & L).
  { intros a c T B. cbn in T. apply (W a c); [eapply starts_trans; [exact T|apply starts_app]|]. intros ->. exact (before_irrefl _ B). }
  cbn [app] in L. pose proof (makedirs_along top s) as A.
  assert (M : makedirs top s = (l, Ok tt)). { unfold makedirs, io_bind, exists_. rewrite N. cbn [effects fold_left app]. rewrite R. reflexivity. }
  rewrite M in A. cbn [fst] in A. exists l. split; [eapply homely_sound; eassumption|].
  assert (T : look (effects s l) top = Some Dir). { apply L. right. repeat split; [exact N| |apply starts_refl]. exists top. split; [exact Nt|reflexivity]. }
  split. { intros a c Ha Na H. apply L in H. destruct H as [H|(_ & H & _)]; [apply (W a c Ha Na H)|discriminate]. }
  split; [exact T|]. split.
  - intros q Nq. destruct (look (effects s l) q) as [n|] eqn:E.
    + apply L in E. destruct E as [E|(_ & _ & _ & E)]; [congruence|contradiction].
    + destruct (look s q) as [n|] eqn:F; [|reflexivity]. assert (G : look (effects s l) q = Some n) by (apply L; left; exact F). congruence.
  - unfold request_load. rewrite (load_eq D parse catalogue nm d top known _ _ _ _ _ _ _ (effects s l)) by congruence.
    unfold load_dataset. match goal with |- context [find ?f catalogue] => replace (find f catalogue) with (Some (nm, d)) by (symmetry; exact known) end.
    unfold io_bind at 1. unfold exists_ at 1. rewrite N. cbn [effects fold_left app]. unfold io_bind at 1. rewrite M.
    match goal with |- (let (_, _) := (let (_, _) := ?x in _) in _) = (_ ++ fst ?y, _) => change y with x; destruct x; reflexivity end.
Qed.
