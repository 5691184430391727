(** Properties of the downloads: C61, C73, C74. *)
From Coq Require Import Ascii String List ZArith Bool Lia Permutation Sorted.
From Verif Require Import Base Lists M_Text M_Fetcher S_Fetcher L_Fetcher L_Fetcher5.
Import ListNotations.
Open Scope Z_scope.
Local Ltac vmr := vm_compute; reflexivity.

Definition toy : entry := mkEntry (lit "toy") (lit "toy.tgz") (lit "u") [lit "train.txt"] [lit "test.txt"] None (Some (lit "Fold")) (Some [lit "LICENSE"]) (lit "blog") (lit "m.tgz") (lit "v").
Definition toy_top : path := [lit "data"].
Definition toy_members : list member :=
  [([lit "LICENSE"], Some (lit "free")); ([lit "train.txt"], Some (lit "1 qid:1")); ([lit "Fold1"], None); ([lit "Fold1"; lit "train.txt"], Some (lit "2 qid:1"));
   ([lit "test.txt"], Some (lit "0 qid:2")); ([lit "Fold1"; lit "test.txt"], Some (lit "3 qid:1"))].
Definition toy_models : list member := [([lit "Fold1"; lit "a.xml"], Some (lit "t")); ([lit "b.txt"], Some (lit "t"))].
Definition toy_net (u : text) : res (res text) := if list_eq_dec ascii_dec u (lit "u") then Ok (Ok (lit "D")) else if list_eq_dec ascii_dec u (lit "v") then Ok (Ok (lit "M")) else Err IOError.
Definition toy_untar (b : text) : list member * res unit :=
  if list_eq_dec ascii_dec b (lit "D") then (toy_members, Ok tt) else if list_eq_dec ascii_dec b (lit "M") then (toy_models, Ok tt) else ([], Err IOError).
(** Longest names first. *)
Definition toy_order : list path -> list path := isort (fun p q => Nat.leb (length q) (length p)).
Definition toy_call : request := mkRequest toy_net toy_untar toy_order None true false true.

Lemma toy_order_ok : removes_children_first toy_order.
Proof.
  intros l _. split; [apply isort_perm|]. intros i j p q Hi Hj B. apply before_length in B.
  assert (S : StronglySorted (fun p q : path => Nat.leb (length q) (length p) = true) (toy_order l)).
  { apply isort_sorted; intros; rewrite ?Nat.leb_le in *; lia. }
  destruct (Nat.lt_ge_cases j i) as [L|L]; [exact L|exfalso]. assert (N : i <> j) by (intros ->; assert (p = q) by congruence; subst; lia). assert (LT : (i < j)%nat) by lia. clear L N.
  revert i j Hi Hj LT. induction S as [|x r S IH F]; intros i j Hi Hj LT; [destruct i; discriminate|].
  destruct i as [|i], j as [|j]; [lia| |lia|].
  - cbn in Hi. injection Hi as ->. cbn in Hj. apply nth_error_In in Hj. rewrite Forall_forall in F. specialize (F _ Hj). apply Nat.leb_le in F. lia.
  - cbn in Hi, Hj. apply (IH i j Hi Hj). lia.
Qed.

(** Small facts decided by computing. *)
Local Ltac plainly := repeat (apply Forall_cons; [split; [discriminate|cbn [In fst]; intuition discriminate]|]); apply Forall_nil.
Local Ltac apart := intros i j p c m Hi Hj [t T]; do 7 (try (destruct i as [|i]; cbn [nth_error] in Hi)); try discriminate Hi; try (destruct i; discriminate Hi);
  injection Hi as <- <-; do 7 (try (destruct j as [|j]; cbn [nth_error] in Hj)); try discriminate Hj; try (destruct j; discriminate Hj);
  try reflexivity; exfalso; injection Hj as <-; discriminate T.
Lemma toy_clean : clean toy_members. Proof. split; [plainly|apart]. Qed.
Lemma toy_models_clean : clean toy_models. Proof. split; [plainly|apart]. Qed.
Lemma toy_servers : servers toy_net toy_untar toy toy_members toy_models.
Proof.
  split; [|split].
  - split; [exists (lit "D"); split; reflexivity|]. split; [apply toy_clean|]. split; [|discriminate]. intros (m & I & t & T). cbn in I. repeat (destruct I as [<-|I]; [discriminate T|]). exact I.
  - split; [exists (lit "M"); split; reflexivity|]. split; [apply toy_models_clean|]. split; [|discriminate]. intros (m & I & t & T). cbn in I. repeat (destruct I as [<-|I]; [discriminate T|]). exact I.
  - intros f E. injection E as <-. exists (lit "free"). left. reflexivity.
Qed.
Lemma toy_fair : forall fold dm force wm, fair (mkRequest toy_net toy_untar toy_order fold dm force wm).
Proof.
  intros. split; [|exact toy_order_ok]. intros url bytes _. cbn [r_untar]. unfold toy_untar.
  destruct (list_eq_dec ascii_dec bytes (lit "D")); [apply toy_clean|]. destruct (list_eq_dec ascii_dec bytes (lit "M")); [apply toy_models_clean|constructor].
Qed.
Lemma empty_sound : sound []. Proof. split; [constructor|]. intros a x n H. discriminate H. Qed.
Lemma empty_open : forall p, open_way [] p. Proof. intros p a c _ _ H. discriminate H. Qed.

(** C61 *)
Theorem C61_after_any_crash : forall d top s0 s, sound s0 -> open_way s0 (data_dir d top) -> reached d top fair s0 s ->
  forall r ms mms, servers (r_net r) (r_untar r) d ms mms -> removes_children_first (r_order r) -> fold_known d (r_fold r) ->
  (r_if_missing r = true \/ look s (data_dir d top) <> None) -> (r_force r = true \/ look s (dataset_dir d top) = None) ->
  exists license names, snd (ask d top r s) = Ok (located d top (r_fold r) license names) /\ holds (after (ask d top r) s) (dataset_dir d top) ms /\
    (r_models r = true -> (r_force r = true \/ look s (models_dir d top) = None) -> holds (after (ask d top r) s) (models_dir d top) mms) /\
    (if r_models r then exists l, names = Some l /\ lists_files (after (ask d top r) s) (models_dir d top ++ fold_dir d (r_fold r)) l else names = None) /\
    licence (after (ask d top r) s) d top license.
Proof. exact C61_main. Qed.
Print Assumptions C61_after_any_crash.
Theorem C61_force_clears : forall d top s0 s, sound s0 -> open_way s0 (data_dir d top) -> reached d top fair s0 s ->
  forall r ms mms, servers (r_net r) (r_untar r) d ms mms -> removes_children_first (r_order r) -> fold_known d (r_fold r) ->
  (r_if_missing r = true \/ look s (data_dir d top) <> None) -> r_force r = true ->
  forall x, look (after (ask d top r) s) (data_dir d top ++ [x]) <> None -> x = lit "dataset" \/ x = lit "models".
Proof. exact C61_force_clears_lemma. Qed.
Print Assumptions C61_force_clears.
Theorem C61_never_repaired_without_force : forall d top s0 s, sound s0 -> open_way s0 (data_dir d top) -> reached d top fair s0 s -> look s (dataset_dir d top) <> None ->
  forall s', reached d top (fun r => fair r /\ r_force r = false) s s' -> same_below (dataset_dir d top) s s'.
Proof. exact C61_kept_lemma. Qed.
Print Assumptions C61_never_repaired_without_force.
Theorem C61_both_directories_no_download : forall d top r s, r_force r = false -> look s (dataset_dir d top) <> None -> (r_models r = false \/ look s (models_dir d top) <> None) ->
  fst (ask d top r s) = [].
Proof. exact offline_present. Qed.
Print Assumptions C61_both_directories_no_download.
Theorem C61_missing_and_not_wanted : forall d top r s, r_if_missing r = false -> look s (data_dir d top) = None -> ask d top r s = ([], Err IOError).
Proof. exact offline_missing. Qed.
Print Assumptions C61_missing_and_not_wanted.
Theorem C61_no_folds : forall d top r s k, r_fold r = Some k -> d_subfolder d = None -> exists e, ask d top r s = ([], Err e).
Proof. exact no_folds. Qed.
Print Assumptions C61_no_folds.

Definition broken : fs := left_after (ask toy toy_top toy_call) [] 15.
(** The directory is created first and later taken as proof that all is there: a crash while the
    files are unpacked is not noticed. *)
Theorem C61_interrupted_refuted : exists d top r ms mms k f c full, sound [] /\ open_way [] (data_dir d top) /\ fair r /\ r_force r = false /\
  servers (r_net r) (r_untar r) d ms mms /\ In (d_train d, Some full) ms /\
  (let s := left_after (ask d top r) [] k in snd (ask d top r s) = Ok f /\ look (after (ask d top r) s) (f_train f) = Some (File c) /\ c <> full).
Proof.
  exists toy, toy_top, toy_call, toy_members, toy_models, 15%nat. eexists. exists (lit "1 q"), (lit "1 qid:1").
  split; [exact empty_sound|]. split; [apply empty_open|]. split; [apply toy_fair|]. split; [reflexivity|]. split; [exact toy_servers|]. split; [right; left; reflexivity|].
  split; [vmr|]. split; [vmr|discriminate].
Qed.
Print Assumptions C61_interrupted_refuted.
(** The same after a crash in the first phase of a forced download, while the old files are removed. *)
Theorem C61_interrupted_removal_refuted : exists d top r r' k s f, sound [] /\ fair r /\ fair r' /\ s = after (ask d top r) [] /\ r_force r = false /\ r_force r' = true /\
  snd (ask d top r (left_after (ask d top r') s k)) = Ok f /\ look s (f_train f) <> None /\ look (after (ask d top r) (left_after (ask d top r') s k)) (f_train f) = None.
Proof.
  exists (mkEntry (lit "toy") (lit "toy.tgz") (lit "u") [lit "Fold1"; lit "train.txt"] [lit "test.txt"] None (Some (lit "Fold")) None (lit "blog") (lit "m.tgz") (lit "v")), toy_top, toy_call,
    (mkRequest toy_net toy_untar toy_order None true true true), 4%nat. eexists. eexists.
  split; [exact empty_sound|]. split; [apply toy_fair|]. split; [apply toy_fair|]. split; [reflexivity|]. split; [reflexivity|]. split; [reflexivity|].
  split; [vmr|]. split; [vm_compute; discriminate|vmr].
Qed.
Print Assumptions C61_interrupted_removal_refuted.
(** After a crash just before the archive is removed, it is listed among the models. *)
Theorem C61_archive_listed_refuted : exists d top r k f l, fair r /\ snd (ask d top r (left_after (ask d top r) [] k)) = Ok f /\ f_models f = Some l /\ In (models_dir d top ++ [d_models_archive d]) l.
Proof.
  exists toy, toy_top, toy_call. exists 54%nat. eexists. eexists. split; [apply toy_fair|]. split; [vmr|]. split; [reflexivity|]. vm_compute. tauto.
Qed.
Print Assumptions C61_archive_listed_refuted.
(** With download_if_missing=False a call still downloads when only the outer directory exists. *)
Theorem C61_not_wanted_refuted : exists d top r s, sound s /\ r_if_missing r = false /\ r_force r = false /\ In (Ask (d_url d)) (fst (ask d top r s)).
Proof.
  exists toy, toy_top, (mkRequest toy_net toy_untar toy_order None false false true), (left_after (ask toy toy_top toy_call) [] 2).
  split; [apply (left_after_kept toy toy_top toy_call [] 2 (toy_fair _ _ _ _) empty_sound (empty_open _))|]. split; [reflexivity|]. split; [reflexivity|]. vm_compute. tauto.
Qed.
Print Assumptions C61_not_wanted_refuted.
Example C61_example : snd (ask toy toy_top toy_call []) = Ok (located toy toy_top None (lit "free") (Some [models_dir toy toy_top ++ [lit "b.txt"]; models_dir toy toy_top ++ [lit "Fold1"; lit "a.xml"]])) /\
  length (fst (ask toy toy_top toy_call [])) = 55%nat /\
  look (after (ask toy toy_top toy_call) []) (dataset_dir toy toy_top ++ [lit "train.txt"]) = Some (File (lit "1 qid:1")) /\
  look (after (ask toy toy_top toy_call) []) (dataset_dir toy toy_top ++ [lit "toy.tgz"]) = None /\
  look broken (dataset_dir toy toy_top ++ [lit "train.txt"]) = Some (File (lit "1 q")) /\ look broken (dataset_dir toy toy_top ++ [lit "test.txt"]) = None.
Proof. repeat split; vmr. Qed.
(** Forcing repairs it. *)
Example C61_force_example : snd (ask toy toy_top (mkRequest toy_net toy_untar toy_order (Some 1) false true true) broken)
    = Ok (located toy toy_top (Some 1) (lit "free") (Some [models_dir toy toy_top ++ [lit "Fold1"; lit "a.xml"]])) /\
  look (after (ask toy toy_top (mkRequest toy_net toy_untar toy_order (Some 1) false true true)) broken) (dataset_dir toy toy_top ++ [lit "train.txt"]) = Some (File (lit "1 qid:1")).
Proof. split; vmr. Qed.

(** C73 *)
Theorem C73_nothing_else_is_touched : forall d top r s k, fair r -> sound s -> forall q, ~ starts (data_dir d top) q ->
  look (left_after (ask d top r) s k) q = look s q \/
  (look s q = None /\ look (left_after (ask d top r) s k) q = Some Dir /\ before q (data_dir d top)).
Proof. exact crash_isolation. Qed.
Print Assumptions C73_nothing_else_is_touched.
Theorem C73_stays_sound : forall d top s s', reached d top fair s s' -> sound s -> open_way s (data_dir d top) -> sound s' /\ open_way s' (data_dir d top).
Proof. intros d top s s'. exact (reached_kept d top fair s s' (fun r H => H)). Qed.
Print Assumptions C73_stays_sound.
(** An archive may contain names that lead upwards: then files elsewhere are overwritten. *)
Theorem C73_climbing_refuted : exists d top r s q c c', sound s /\ removes_children_first (r_order r) /\ ~ starts (data_dir d top) q /\
  look s q = Some (File c) /\ look (after (ask d top r) s) q = Some (File c') /\ c <> c'.
Proof.
  exists toy, toy_top, (mkRequest toy_net (fun _ => ([([lit ".."; lit ".."; lit "other"], Some (lit "evil")); ([lit "LICENSE"], Some (lit "free"))], Ok tt)) toy_order None true false false),
    [([lit "data"; lit "other"], File (lit "good")); ([lit "data"], Dir)], [lit "data"; lit "other"], (lit "good"), (lit "evil").
  split.
  { split; [repeat constructor; cbn; intuition discriminate|]. intros a x n H. rewrite !look_cons in H. destruct (path_dec [lit "data"; lit "other"] (a ++ [x])) as [E|E].
    - right. destruct a as [|y [|z a]]; [discriminate| |]; injection E as E1 E; [rewrite <- E1; vmr|destruct a; discriminate].
    - destruct (path_dec [lit "data"] (a ++ [x])) as [F|F]; [|discriminate]. left. destruct a as [|y a]; [reflexivity|]. injection F as _ F. destruct a; discriminate. }
  split; [exact toy_order_ok|]. split; [intros [t T]; discriminate T|]. split; [vmr|]. split; [vmr|discriminate].
Qed.
Print Assumptions C73_climbing_refuted.

(** C74 *)
Theorem C74_contents_of_the_archive : forall d top (D : Type) (parse : text -> res D) catalogue nm, in_catalogue catalogue nm d ->
  forall s, sound s -> open_way s (data_dir d top) -> look s top <> None ->
  forall r ms mms tr te va, servers (r_net r) (r_untar r) d ms mms -> removes_children_first (r_order r) -> fold_known d (r_fold r) ->
  (r_if_missing r = true \/ look s (data_dir d top) <> None) -> (r_force r = true \/ look s (dataset_dir d top) = None) -> archived parse d (r_fold r) ms tr te va ->
  exists license names, snd (request_load parse catalogue top nm r s) = Ok (Some (mkContainer tr te va license names)) /\
    holds (after (request_load parse catalogue top nm r) s) (dataset_dir d top) ms /\ fst (request_load parse catalogue top nm r s) = fst (ask d top r s) /\
    (if r_models r then exists l, names = Some l /\ lists_files (after (request_load parse catalogue top nm r) s) (models_dir d top ++ fold_dir d (r_fold r)) l else names = None) /\
    licence (after (request_load parse catalogue top nm r) s) d top license.
Proof. exact C74_first_lemma. Qed.
Print Assumptions C74_contents_of_the_archive.
Theorem C74_later_calls_are_offline : forall d top (D : Type) (parse : text -> res D) catalogue nm, in_catalogue catalogue nm d ->
  forall s, sound s -> open_way s (data_dir d top) -> look s top <> None ->
  forall r ms mms tr te va, clean ms -> holds s (dataset_dir d top) ms -> holds s (models_dir d top) mms -> (forall f, d_license d = Some f -> f <> [] /\ exists c, In (f, Some c) ms) ->
  fold_known d (r_fold r) -> r_force r = false -> archived parse d (r_fold r) ms tr te va ->
  exists license names, request_load parse catalogue top nm r s = ([], Ok (Some (mkContainer tr te va license names))) /\
    (if r_models r then exists l, names = Some l /\ lists_files s (models_dir d top ++ fold_dir d (r_fold r)) l else names = None) /\ licence s d top license.
Proof. exact C74_later_lemma. Qed.
Print Assumptions C74_later_calls_are_offline.
Theorem C74_first_directory : forall (D : Type) (parse : text -> res D) catalogue nm d top r s, in_catalogue catalogue nm d -> top <> [] -> sound s -> open_way s (data_dir d top) -> look s top = None ->
  exists l, sound (effects s l) /\ open_way (effects s l) (data_dir d top) /\ look (effects s l) top = Some Dir /\
  (forall q, ~ starts q top -> look (effects s l) q = look s q) /\
  request_load parse catalogue top nm r s = (l ++ fst (request_load parse catalogue top nm r (effects s l)), snd (request_load parse catalogue top nm r (effects s l))).
Proof. exact C74_top_lemma. Qed.
Print Assumptions C74_first_directory.
Theorem C74_unknown_name : forall (D : Type) (parse : text -> res D) catalogue top nm r s, (forall e, In e catalogue -> fst e <> nm) ->
  request_load parse catalogue top nm r s = ([], Ok None).
Proof. intros D parse catalogue top nm [net untar order fold dm force wm] s H. exact (load_unknown D parse catalogue top net untar order nm fold dm force wm s H). Qed.
Print Assumptions C74_unknown_name.
Example C74_example : snd (request_load (fun t => Ok t) [(lit "toy", toy)] toy_top (lit "toy") (mkRequest toy_net toy_untar toy_order (Some 1) true false false) [])
  = Ok (Some (mkContainer (lit "2 qid:1") (lit "3 qid:1") None (lit "free") None)) /\
  snd (request_load (fun t => Ok t) [(lit "toy", toy)] toy_top (lit "toy") (mkRequest (fun _ => Err IOError) toy_untar toy_order (Some 1) false false false)
        (after (request_load (fun t => Ok t) [(lit "toy", toy)] toy_top (lit "toy") (mkRequest toy_net toy_untar toy_order (Some 1) true false false)) []))
  = Ok (Some (mkContainer (lit "2 qid:1") (lit "3 qid:1") None (lit "free") None)).
Proof. split; vmr. Qed.
