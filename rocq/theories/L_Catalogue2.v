(** Proofs about the catalogue: the entries that are shipped. *)
From Coq Require Import Ascii String List ZArith Lia Bool.
From Verif Require Import Base M_Text M_Fetcher S_Fetcher L_Fetcher L_Fetcher2 L_Fetcher4 L_Fetcher5 M_Catalogue S_Catalogue.
Import ListNotations.
Local Open Scope Z_scope.

Lemma load_silent : forall (D : Type) (parse : text -> res D) p s, exists r, load parse p s = ([], r) /\ (forall v, r = Ok v -> exists c, look s p = Some (File c) /\ parse c = Ok v).
Proof.
  intros D parse p s. unfold load, io_bind, read_file, lift. destruct (look s p) as [[|c]|]; try (eexists; split; [reflexivity|discriminate]).
  cbn [effects fold_left app]. exists (parse c). split; [reflexivity|]. intros v E. exists c. split; [reflexivity|exact E].
Qed.
Lemma loads_need : forall (D : Type) (parse : text -> res D) f p s l x, f_validation f = Some p ->
  (step tr <- load parse (f_train f); step te <- load parse (f_test f);
   step va <- match f_validation f with Some p => step v <- load parse p; ret (Some v) | None => ret None end;
   ret (Some (mkContainer tr te va (f_license f) (f_models f)))) s = (l, Ok x) -> exists c, look s p = Some (File c).
Proof.
  intros D parse f p s l x V. rewrite V. destruct (load_silent D parse (f_train f) s) as ([tr|e] & E1 & _).
  2:{ rewrite (io_bind_err _ _ _ _ _ _ _ E1). discriminate. }
  rewrite (silent_bind _ _ _ _ _ _ E1). destruct (load_silent D parse (f_test f) s) as ([te|e] & E2 & _).
  2:{ rewrite (io_bind_err _ _ _ _ _ _ _ E2). discriminate. }
  rewrite (silent_bind _ _ _ _ _ _ E2). destruct (load_silent D parse p s) as ([va|e] & E3 & H3).
  2:{ rewrite (io_bind_err _ _ _ _ s [] e); [discriminate|]. apply io_bind_err. exact E3. }
  intros _. destruct (H3 va eq_refl) as (c & Hc & _). exists c. exact Hc.
Qed.
Lemma missing_validation : forall (D : Type) (parse : text -> res D) catalogue nm d top s r ms mms f, in_catalogue catalogue nm d ->
  sound s -> open_way s (data_dir d top) -> look s top <> None -> servers (r_net r) (r_untar r) d ms mms -> removes_children_first (r_order r) -> fold_known d (r_fold r) ->
  (r_if_missing r = true \/ look s (data_dir d top) <> None) -> (r_force r = true \/ look s (dataset_dir d top) = None) ->
  d_validation d = Some f -> f <> [] -> (forall c, ~ In (fold_dir d (r_fold r) ++ f, Some c) ms) ->
  exists e, snd (request_load parse catalogue top nm r s) = Err e.
Proof.
  intros D parse catalogue nm d top s r ms mms f known S W N V O K Dm M Hv Nf No.
  destruct (C61_main d top s s S W (reached_start _ _ _ _) r ms mms V O K Dm M) as (license & names & E & H & _).
  destruct (ask d top r s) as [l x] eqn:Q. cbn [snd] in E. subst x. unfold after in H. rewrite Q in H. cbn [fst] in H.
  unfold request_load. rewrite (load_eq D parse catalogue nm d top known) by exact N. unfold ask in Q. unfold io_bind at 1. rewrite Q.
  match goal with |- context [let (_, _) := ?m (effects s l) in _] => destruct (m (effects s l)) as [l' [x|e]] eqn:F end; [|exists e; reflexivity].
  exfalso. eapply loads_need in F; [|unfold located; cbn [f_validation]; rewrite Hv; reflexivity]. destruct F as (c & F).
  apply (proj2 H) in F; [|destruct (fold_dir d (r_fold r)); [exact Nf|discriminate]]. exact (No c F).
Qed.

