(** Whole calls: what they leave, and what they cannot repair. *)
From Coq Require Import Ascii String List ZArith Bool Lia Permutation.
From Verif Require Import Base M_Text M_Fetcher S_Fetcher L_Fetcher L_Fetcher2 L_Fetcher3.
Import ListNotations.

Section Whole.
Variables (net : text -> res (res text)) (untar : text -> list member * res unit) (order : list path -> list path).
Variables (d : entry) (top : path).
Let home := data_dir d top.
Let dd := dataset_dir d top.
Let md := models_dir d top.

Definition license_io : io text :=
  match d_license d with Some f => read_file (dd ++ f) | None => ret (lit "Please, check the terms of use before using the dataset. Here the link: " ++ d_blog d) end.
Definition models_io (fold : option Z) (wm : bool) : io (option (list path)) :=
  if wm then step _ <- found_or md (download net untar md (d_models_archive d) (d_models_url d)); step l <- walk (md ++ fold_dir d fold); ret (Some l) else ret None.
Definition files_of := located d top.
Definition rest (fold : option Z) (wm : bool) : io files :=
  step _ <- found_or dd (download net untar dd (d_archive d) (d_url d));
  step license <- license_io; step models <- models_io fold wm; ret (files_of fold license models).
Definition clearing (force : bool) : io unit :=
  if force then step here' <- exists_ home; (if here' then step _ <- rmtree order home; makedirs home else ret tt) else ret tt.

Lemma dd_eq : dd = home ++ [lit "dataset"]. Proof. unfold dd, home, dataset_dir, data_dir. rewrite <- app_assoc. reflexivity. Qed.
Lemma md_eq : md = home ++ [lit "models"]. Proof. unfold md, home, models_dir, data_dir. rewrite <- app_assoc. reflexivity. Qed.
Lemma home_not_nil : home <> []. Proof. unfold home, data_dir. destruct top; discriminate. Qed.

Lemma fetch_eq : forall fold dm force wm s, fold_known d fold -> (dm = true \/ look s home <> None) ->
  fetch net untar order d fold top dm force wm s = io_bind (clearing force) (fun _ => rest fold wm) s.
Proof.
  intros fold dm force wm s K D. unfold fetch, io_bind at 1. unfold exists_ at 1. cbn [effects fold_left].
  fold (data_dir d top). fold home. rewrite <- dd_eq, <- md_eq.
  assert (E : negb dm && negb (match look s home with Some _ => true | None => false end) = false).
  { destruct D as [->|D]; [reflexivity|]. destruct (look s home); [apply andb_false_r|congruence]. }
  rewrite E. clear E.
  match goal with |- (let (l', r) := ?m s in _) = _ => enough (X : m s = io_bind (clearing force) (fun _ => rest fold wm) s) end.
  { rewrite X. destruct (io_bind (clearing force) (fun _ => rest fold wm) s). reflexivity. }
  unfold rest, models_io, files_of, located, fold_dir. destruct fold as [k|]; [|reflexivity]. destruct (d_subfolder d) as [f|] eqn:E; [reflexivity|]. exfalso. destruct K; congruence.
Qed.
Lemma found_present : forall p get s, look s p <> None -> found_or p get s = ([], Ok tt).
Proof. intros p get s H. unfold found_or, io_bind, exists_. destruct (look s p); [reflexivity|congruence]. Qed.
Lemma found_absent : forall p get s, look s p = None -> found_or p get s = get s.
Proof. intros p get s H. unfold found_or, io_bind, exists_. rewrite H. cbn [effects fold_left app]. destruct (get s); reflexivity. Qed.
Lemma open_way_down : forall s x, open_way s home -> look s (home ++ [x]) = None -> open_way s (home ++ [x]).
Proof. intros s x W N a c T Na. destruct (starts_snoc _ _ _ T) as [E|E]; [subst a; congruence|apply (W a c E Na)]. Qed.
Lemma dataset_not_models : lit "dataset" <> lit "models". Proof. discriminate. Qed.
(** The two directories do not overlap. *)
Lemma siblings : forall q, starts dd q -> ~ before md q /\ ~ starts q md.
Proof.
  intros q T. rewrite dd_eq in T. rewrite md_eq. destruct T as [t ->]. rewrite <- app_assoc. split.
  - intros B. apply before_starts in B. apply starts_app_inv in B. destruct B as [u B]. cbn [app] in B. injection B as B _. exact (dataset_not_models (eq_sym (f_equal lit B))) || discriminate B.
  - intros B. apply starts_app_inv in B. destruct B as [u B]. cbn [app] in B. discriminate B.
Qed.
Lemma siblings' : forall q, starts md q -> ~ before dd q /\ ~ starts q dd.
Proof.
  intros q T. rewrite md_eq in T. rewrite dd_eq. destruct T as [t ->]. rewrite <- app_assoc. split.
  - intros B. apply before_starts in B. apply starts_app_inv in B. destruct B as [u B]. cbn [app] in B. discriminate B.
  - intros B. apply starts_app_inv in B. destruct B as [u B]. cbn [app] in B. discriminate B.
Qed.
Lemma holds_same : forall p ms s s', holds s p ms -> same_below p s s' -> holds s' p ms.
Proof. intros p ms s s' [H1 H2] E. split; [rewrite (E p (starts_refl _)); exact H1|]. intros q n Nq. rewrite (E (p ++ q) (starts_app _ _)). apply H2. exact Nq. Qed.
Lemma serves_plain : forall url archive ms, serves net untar url archive ms -> no_climbing net untar url.
Proof. intros url archive ms ((bytes & H1 & H2) & [P _] & _) b H. rewrite H1 in H. injection H as <-. rewrite H2. exact P. Qed.

Lemma walk_lists : forall p s, sound s -> exists l, walk p s = ([], Ok l) /\ lists_files s p l.
Proof.
  intros p s [D _]. eexists. split; [reflexivity|]. intros q. rewrite in_map_iff. split.
  - intros ([a n] & E & H). cbn in E. subst a. apply filter_In in H. destruct H as [H F]. cbn in F. apply andb_true_iff in F. destruct F as [F G]. apply andb_true_iff in F. destruct F as [F F'].
    apply within_iff in F. destruct (path_dec p q) as [X|X]; [discriminate|]. split; [apply starts_before; assumption|]. destruct n as [|c]; [discriminate|]. exists c. apply in_look; assumption.
  - intros (B & c & H). exists (q, File c). split; [reflexivity|]. apply filter_In. split; [apply look_in, H|]. cbn. rewrite (proj2 (within_iff p q) (before_starts _ _ B)).
    destruct (path_dec p q) as [X|X]; [subst; exfalso; exact (before_irrefl _ B)|reflexivity].
Qed.

Variables ms mms : list member.

Lemma models_ok : forall fold wm s, serves net untar (d_models_url d) (d_models_archive d) mms -> sound s -> open_way s home ->
  exists l o, models_io fold wm s = (l, Ok o) /\ along (proper md) s l /\
  (wm = true -> look s md = None -> holds (effects s l) md mms) /\ (look s md <> None -> l = []) /\ (wm = false -> l = [] /\ o = None) /\
  (wm = true -> exists names, o = Some names /\ lists_files (effects s l) (md ++ fold_dir d fold) names).
Proof.
  intros fold wm s V S W. unfold models_io. destruct wm.
  2: { exists [], None. repeat split; try discriminate. }
  assert (X : exists l, found_or md (download net untar md (d_models_archive d) (d_models_url d)) s = (l, Ok tt) /\ (look s md = None -> holds (effects s l) md mms) /\ (look s md <> None -> l = [])).
  { destruct (look s md) as [n|] eqn:E.
    - exists []. split; [apply found_present; congruence|]. split; [discriminate|reflexivity].
    - rewrite (found_absent _ _ _ E). destruct (download_ok net untar md (d_models_archive d) (d_models_url d) mms s S) as (l & R & H).
      + rewrite md_eq. destruct home; discriminate.
      + exact E.
      + rewrite md_eq in *. apply open_way_down; assumption.
      + exact V.
      + exists l. split; [exact R|]. split; [intros _; exact H|congruence]. }
  destruct X as (l & R & H1 & H2).
  pose proof (found_along net untar md (d_models_archive d) (d_models_url d) s (serves_plain _ _ _ V) S) as A. rewrite R in A. cbn [fst] in A.
  destruct (walk_lists (md ++ fold_dir d fold) (effects s l) (proper_sound _ _ _ S A)) as (names & Rw & Lw).
  exists (l ++ [] ++ []), (Some names). split; [eapply io_bind_ok; [exact R|]; eapply io_bind_ok; [exact Rw|reflexivity]|]. cbn [app]. rewrite app_nil_r.
  split; [exact A|]. split; [intros _; exact H1|]. split; [exact H2|]. split; [discriminate|]. intros _. exists names. split; [reflexivity|exact Lw].
Qed.

Lemma rest_ok : forall fold wm s, servers net untar d ms mms -> sound s -> open_way s home ->
  (look s dd = None \/ forall f, d_license d = Some f -> exists c, look s (dd ++ f) = Some (File c)) ->
  exists l license names, rest fold wm s = (l, Ok (files_of fold license names)) /\ sound (effects s l) /\
  (look s dd = None -> holds (effects s l) dd ms) /\ (look s dd <> None -> same_below dd s (effects s l)) /\
  (wm = true -> look s md = None -> holds (effects s l) md mms) /\ (look s md <> None -> same_below md s (effects s l)) /\
  (look s dd <> None -> wm = false \/ look s md <> None -> l = []) /\
  (wm = false -> names = None) /\ (wm = true -> exists fl, names = Some fl /\ lists_files (effects s l) (md ++ fold_dir d fold) fl) /\
  licence (effects s l) d top license /\
  (forall x, look (effects s l) (home ++ [x]) <> None -> look s (home ++ [x]) = None -> x = lit "dataset" \/ x = lit "models").
Proof.
  intros fold wm s (V1 & V2 & V3) S W Lic. unfold rest.
  assert (X : exists l1, found_or dd (download net untar dd (d_archive d) (d_url d)) s = (l1, Ok tt) /\ along (proper dd) s l1 /\
     (look s dd = None -> holds (effects s l1) dd ms) /\ (look s dd <> None -> l1 = [])).
  { pose proof (found_along net untar dd (d_archive d) (d_url d) s (serves_plain _ _ _ V1) S) as A.
    destruct (look s dd) as [n|] eqn:E.
    - assert (P : found_or dd (download net untar dd (d_archive d) (d_url d)) s = ([], Ok tt)) by (apply found_present; congruence). exists []. rewrite P in *. repeat split; try exact I; discriminate.
    - rewrite (found_absent _ _ _ E) in *. destruct (download_ok net untar dd (d_archive d) (d_url d) ms s S) as (l & R & H).
      + rewrite dd_eq. destruct home; discriminate.
      + exact E.
      + rewrite dd_eq in *. apply open_way_down; assumption.
      + exact V1.
      + exists l. rewrite R in *. split; [reflexivity|]. split; [exact A|]. split; [intros _; exact H|congruence]. }
  destruct X as (l1 & R1 & A1 & H1 & K1). set (s1 := effects s l1) in *.
  assert (S1 : sound s1) by (eapply proper_sound; eassumption).
  assert (W1 : open_way s1 home). { apply (inside_open_way dd); [exact A1|rewrite dd_eq; apply starts_app|exact W]. }
  assert (M1 : same_below md s s1). { intros q T. destruct (siblings' q T). apply (inside_frame dd); assumption. }
  assert (Li : exists license, license_io s1 = ([], Ok license)).
  { unfold license_io. destruct (d_license d) as [f|] eqn:E; [|eexists; reflexivity]. unfold read_file.
    assert (Y : exists c, look s1 (dd ++ f) = Some (File c)).
    { destruct (look s dd) as [n|] eqn:F.
      - destruct Lic as [Lic|Lic]; [discriminate|]. unfold s1. rewrite K1 by discriminate. apply Lic. reflexivity.
      - destruct (V3 f eq_refl) as [c C]. exists c. apply (H1 eq_refl); [|exact C].
        destruct V1 as (_ & [P _] & _). rewrite Forall_forall in P. apply (P _ C). }
    destruct Y as [c Y]. rewrite Y. eexists. reflexivity. }
  destruct Li as [license Li]. assert (Lc : licence s1 d top license).
  { unfold licence. unfold license_io, read_file, ret in Li. destruct (d_license d) as [f|]; [|congruence]. fold dd. destruct (look s1 (dd ++ f)) as [[|c]|]; congruence. }
  destruct (models_ok fold wm s1 V2 S1 W1) as (l2 & o & R2 & A2 & B1 & B2 & B3 & B4).
  exists (l1 ++ [] ++ l2 ++ []), license, o. rewrite app_nil_l, app_nil_r.
  assert (S2 : sound (effects s1 l2)) by (eapply proper_sound; eassumption).
  assert (D2 : same_below dd s1 (effects s1 l2)). { intros q T. destruct (siblings q T). apply (inside_frame md); assumption. }
  rewrite effects_app. fold s1.
  split. { eapply io_bind_ok; [exact R1|]. fold s1. replace l2 with ([] ++ l2 ++ []) by (rewrite app_nil_r; reflexivity). eapply io_bind_ok; [exact Li|]. cbn [effects fold_left]. eapply io_bind_ok; [exact R2|]. reflexivity. }
  split; [exact S2|].
  split. { intros N. apply (holds_same dd ms s1); [apply H1, N|exact D2]. }
  split. { intros N. specialize (K1 N). unfold s1 in D2. rewrite K1 in D2. unfold s1. rewrite K1. exact D2. }
  split. { intros Hw N. apply B1; [exact Hw|]. rewrite (M1 md (starts_refl _)). exact N. }
  split. { intros N. rewrite B2; [exact M1|]. rewrite (M1 md (starts_refl _)). exact N. }
  split. { intros N Hw. rewrite (K1 N). cbn [app]. destruct Hw as [Hw|Hw]; [apply B3, Hw|]. apply B2. rewrite (M1 md (starts_refl _)). exact Hw. }
  split; [intros Hw; apply B3, Hw|]. split; [exact B4|].
  split. { unfold licence in *. destruct (d_license d) as [f|]; [|exact Lc]. fold dd in Lc |- *. rewrite (D2 (dd ++ f) (starts_app _ _)). exact Lc. }
  intros x N1 N2. destruct (list_eq_dec ascii_dec x (lit "dataset")) as [E1|E1]; [left; exact E1|]. destruct (list_eq_dec ascii_dec x (lit "models")) as [E2|E2]; [right; exact E2|].
  exfalso. apply N1. rewrite (inside_frame md l2 s1 A2); [unfold s1; rewrite (inside_frame dd l1 s A1); [exact N2| |]| |].
  - rewrite dd_eq. intros B. apply before_starts in B. apply starts_app_inv in B. destruct B as [u B]. cbn [app] in B. congruence.
  - rewrite dd_eq. intros B. apply starts_app_inv in B. destruct B as [u B]. cbn [app] in B. congruence.
  - rewrite md_eq. intros B. apply before_starts in B. apply starts_app_inv in B. destruct B as [u B]. cbn [app] in B. congruence.
  - rewrite md_eq. intros B. apply starts_app_inv in B. destruct B as [u B]. cbn [app] in B. congruence.
Qed.

(** Everything of the old directory is gone. *)
Lemma clearing_ok : forall s, sound s -> open_way s home -> removes_children_first order ->
  exists l, clearing true s = (l, Ok tt) /\ along (homely home) s l /\ sound (effects s l) /\ open_way (effects s l) home /\ forall q, q <> [] -> look (effects s l) (home ++ q) = None.
Proof.
  intros s S W O. unfold clearing. unfold io_bind at 1. unfold exists_ at 1. cbn [effects fold_left].
  destruct (look s home) as [n|] eqn:E.
  - assert (n = Dir). { destruct n as [|c]; [reflexivity|]. exfalso. apply (W home c (starts_refl _) home_not_nil E). } subst n.
    pose proof (rmtree_along order O home s S) as A1. unfold rmtree in A1. rewrite E in A1. cbn [fst] in A1.
    set (l1 := map Remove (order (below s home))) in *. set (s1 := effects s l1) in *.
    assert (G : forall q, starts home q -> look s1 q = None).
    { intros q T. unfold s1, l1. rewrite look_removes. destruct (in_dec path_dec q (order (below s home))) as [X|X]; [reflexivity|].
      destruct (look s q) as [n|] eqn:F; [exfalso|reflexivity]. apply X. destruct (O (below s home) (nodup_below s home S)) as [P _].
      eapply Permutation_in; [apply Permutation_sym, P|]. apply in_below. split; [congruence|exact T]. }
    assert (W1 : open_way s1 home). { intros a c T Na H. unfold s1, l1 in H. rewrite look_removes in H. destruct (in_dec path_dec a (order (below s home))); [discriminate|]. apply (W a c T Na H). }
    destruct (make_path_ok home [] s1) as (l2 & R2 & L2).
    { intros a c T B. cbn in T. apply (W1 a c T). intros ->. exact (before_irrefl _ B). }
    assert (M2 : makedirs home s1 = (l2, Ok tt)). { unfold makedirs, io_bind, exists_. rewrite (G home (starts_refl _)). cbn [effects fold_left app]. rewrite R2. reflexivity. }
    pose proof (makedirs_along home s1) as A2. rewrite M2 in A2. cbn [fst] in A2.
    exists (l1 ++ l2). rewrite effects_app. fold s1.
    assert (S1 : sound s1) by (eapply homely_sound; eassumption).
    split. { replace (l1 ++ l2) with ([] ++ (l1 ++ l2)) by reflexivity. erewrite io_bind_ok; [reflexivity|unfold rmtree; rewrite E; reflexivity|]. fold l1. fold s1. exact M2. }
    split; [apply along_app; split; assumption|]. split; [eapply homely_sound; eassumption|]. cbn [app] in L2. split.
    + intros a c T Na H. apply L2 in H. destruct H as [H|(_ & H & _)]; [apply (W1 a c T Na H)|discriminate].
    + intros q Nq. destruct (look (effects s1 l2) (home ++ q)) as [n|] eqn:F; [exfalso|reflexivity]. apply L2 in F. destruct F as [F|(_ & _ & _ & F)].
      * rewrite (G (home ++ q) (starts_app _ _)) in F. discriminate.
      * apply starts_length in F. rewrite app_length in F. destruct q; [congruence|cbn in F; lia].
  - exists []. split; [reflexivity|]. split; [exact I|]. cbn [effects fold_left]. split; [exact S|]. split; [exact W|]. intros q Nq.
    destruct (look s (home ++ q)) as [n|] eqn:F; [exfalso|reflexivity]. apply (sound_above s S) in F; [congruence|apply home_not_nil|exact Nq].
Qed.

Lemma force_ok : forall fold dm wm s, servers net untar d ms mms -> removes_children_first order -> fold_known d fold -> sound s -> open_way s home -> (dm = true \/ look s home <> None) ->
  exists l license names, fetch net untar order d fold top dm true wm s = (l, Ok (files_of fold license names)) /\ sound (effects s l) /\
  holds (effects s l) dd ms /\ (wm = true -> holds (effects s l) md mms) /\
  (wm = false -> names = None) /\ (wm = true -> exists fl, names = Some fl /\ lists_files (effects s l) (md ++ fold_dir d fold) fl) /\
  licence (effects s l) d top license /\
  (forall x, look (effects s l) (home ++ [x]) <> None -> x = lit "dataset" \/ x = lit "models").
Proof.
  intros fold dm wm s V O K S W D. rewrite (fetch_eq fold dm true wm s K D).
  destruct (clearing_ok s S W O) as (l1 & R1 & A1 & S1 & W1 & E1).
  assert (Nd : look (effects s l1) dd = None) by (rewrite dd_eq; apply E1; discriminate).
  assert (Nm : look (effects s l1) md = None) by (rewrite md_eq; apply E1; discriminate).
  destruct (rest_ok fold wm (effects s l1) V S1 W1 (or_introl Nd)) as (l2 & license & names & R2 & S2 & H1 & _ & H3 & _ & _ & H6 & H7 & H9 & H8).
  exists (l1 ++ l2), license, names. rewrite effects_app. split; [eapply io_bind_ok; eassumption|]. split; [exact S2|]. split; [apply H1, Nd|]. split; [intros Hw; apply H3; assumption|].
  split; [exact H6|]. split; [exact H7|]. split; [exact H9|]. intros x Hx. apply H8; [exact Hx|]. apply E1. discriminate.
Qed.
End Whole.
