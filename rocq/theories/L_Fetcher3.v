(** A download that is not disturbed leaves exactly the content of the archive. *)
From Coq Require Import Ascii String List ZArith Bool Lia Permutation.
From Verif Require Import Base M_Text M_Fetcher S_Fetcher L_Fetcher L_Fetcher2.
Import ListNotations.

Lemma snoc_app : forall (A : Type) (a : list A) n r, a ++ n :: r = (a ++ [n]) ++ r.
Proof. intros. rewrite <- app_assoc. reflexivity. Qed.
Lemma make_path_ok : forall rest done s, (forall a c, starts a (done ++ rest) -> before done a -> look s a <> Some (File c)) ->
  exists l, make_path done rest s = (l, Ok tt) /\
  forall q n, look (effects s l) q = Some n <-> look s q = Some n \/ (look s q = None /\ n = Dir /\ before done q /\ starts q (done ++ rest)).
Proof.
  induction rest as [|x r IH]; intros done s W.
  - exists []. split; [reflexivity|]. intros q n. cbn [effects fold_left]. rewrite app_nil_r. split; [tauto|]. intros [H|(_ & _ & B & T)]; [exact H|].
    apply before_length in B. apply starts_length in T. lia.
  - assert (B0 : before done (done ++ [x])) by (exists [x]; split; [discriminate|reflexivity]).
    assert (T0 : starts (done ++ [x]) (done ++ x :: r)) by (rewrite (snoc_app _ done x r); apply starts_app).
    assert (C : forall q, before done q -> starts q (done ++ x :: r) -> q = done ++ [x] \/ before (done ++ [x]) q).
    { intros q (t & Nt & ->) T. apply starts_app_inv in T. destruct T as [u E]. destruct t as [|y t]; [congruence|]. cbn in E. injection E as <- E.
      destruct t as [|z t]; [left; reflexivity|right]. exists (z :: t). split; [discriminate|apply snoc_app]. }
    cbn [make_path]. destruct (look s (done ++ [x])) as [[|c]|] eqn:E.
    + destruct (IH (done ++ [x]) s) as (l & R & L).
      { intros a c Ta Ba. rewrite <- snoc_app in Ta. apply W; [exact Ta|]. eapply before_starts_trans; [exact B0|apply before_starts, Ba]. }
      exists l. split; [exact R|]. intros q n. rewrite L, <- snoc_app. split; (intros [H|(H1 & H2 & H3 & H4)]; [left; exact H|right]); repeat split; try assumption.
      * eapply before_starts_trans; [exact B0|apply before_starts, H3].
      * destruct (C q H3 H4) as [->|H]; [congruence|exact H].
    + exfalso. apply (W (done ++ [x]) c T0 B0 E).
    + destruct (IH (done ++ [x]) (store s (done ++ [x]) Dir)) as (l & R & L).
      { intros a c Ta Ba. rewrite <- snoc_app in Ta. rewrite look_store. destruct (path_dec (done ++ [x]) a); [discriminate|]. apply W; [exact Ta|]. eapply before_starts_trans; [exact B0|apply before_starts, Ba]. }
      exists (Mkdir (done ++ [x]) :: l). split; [unfold io_bind; cbn [tell effects fold_left effect]; rewrite R; reflexivity|].
      intros q n. cbn [effects fold_left effect]. fold (effects (store s (done ++ [x]) Dir) l). rewrite L, <- snoc_app, look_store.
      destruct (path_dec (done ++ [x]) q) as [F|F].
      * subst q. split.
        -- intros [H|(H & _)]; [|discriminate]. injection H as <-. right. repeat split; assumption.
        -- intros [H|(H1 & -> & _)]; [congruence|left; reflexivity].
      * split; (intros [H|(H1 & H2 & H3 & H4)]; [left; exact H|right]); repeat split; try assumption.
        -- eapply before_starts_trans; [exact B0|apply before_starts, H3].
        -- destruct (C q H3 H4) as [G|G]; [congruence|exact G].
Qed.

Definition exact (s : fs) (root : path) (ms : list member) : Prop := forall q n, q <> [] -> (look s (root ++ q) = Some n <-> stored ms q n).
Lemma stored_snoc : forall ms m q n, stored (ms ++ [m]) q n <-> stored ms q n \/ match n with File c => m = (q, Some c) | Dir => m = (q, None) \/ before q (fst m) end.
Proof.
  intros ms m q n. destruct n as [|c]; cbn.
  - rewrite in_app_iff. cbn. split.
    + intros [[H|[H|[]]]|(m' & H & B)]; [tauto|tauto|]. apply in_app_or in H. destruct H as [H|[H|[]]]; [left; right; exists m'; tauto|subst; tauto].
    + intros [[H|(m' & H & B)]|[H|H]]; [tauto| |tauto|].
      * right. exists m'. split; [apply in_or_app; tauto|exact B].
      * right. exists m. split; [apply in_or_app; right; left; reflexivity|exact H].
  - rewrite in_app_iff. cbn. intuition.
Qed.
Lemma clean_last : forall ms p oc, clean (ms ++ [(p, oc)]) ->
  plain p /\ (forall q c, In (q, Some c) ms -> ~ starts q p) /\ (forall c m, oc = Some c -> In m ms -> ~ starts p (fst m)).
Proof.
  intros ms p oc [P U]. apply Forall_app in P. destruct P as [_ P]. inversion P; subst. cbn in H1. split; [exact H1|].
  assert (N : nth_error (ms ++ [(p, oc)]) (length ms) = Some (p, oc)) by (rewrite nth_error_app2, Nat.sub_diag by lia; reflexivity). split.
  - intros q c H T. apply In_nth_error in H. destruct H as [i H]. assert (LT : (i < length ms)%nat) by (apply nth_error_Some; congruence).
    specialize (U i (length ms) q c (p, oc)). rewrite nth_error_app1 in U by exact LT. specialize (U H N T). lia.
  - intros c m -> H T. apply In_nth_error in H. destruct H as [i H]. assert (LT : (i < length ms)%nat) by (apply nth_error_Some; congruence).
    specialize (U (length ms) i p c m). rewrite (nth_error_app1 _ _ LT) in U. specialize (U N H T). lia.
Qed.
Lemma clean_front : forall a b, clean (a ++ b) -> clean a.
Proof.
  intros a b [P U]. split; [apply Forall_app in P; tauto|]. intros i j p c m Hi Hj T. eapply U; [| |exact T].
  - rewrite nth_error_app1; [exact Hi|]. apply nth_error_Some. congruence.
  - rewrite nth_error_app1; [exact Hj|]. apply nth_error_Some. congruence.
Qed.

Lemma extract_member_ok : forall root ms m s, root <> [] -> look s root = Some Dir -> open_way s root -> exact s root ms -> clean (ms ++ [m]) ->
  exists l, extract_member root m s = (l, Ok tt) /\ exact (effects s l) root (ms ++ [m]).
Proof.
  intros root ms [p oc] s Nr Lr W X C. destruct (clean_last _ _ _ C) as ([Np Hp] & U1 & U2). unfold extract_member. cbn [fst snd]. rewrite (target_plain p root Hp).
  rewrite (removelast_app' _ root p Np). destruct (path_snoc p Np) as (a & x & Ep). replace (removelast p) with a by (rewrite Ep, removelast_snoc; reflexivity).
  assert (Bp : forall q, starts q a -> before q p). { intros q T. eapply starts_before_trans; [exact T|]. exists [x]. split; [discriminate|exact Ep]. }
  assert (Pb : forall q, before q p -> starts q a).
  { intros q B. destruct (starts_snoc q a x) as [E|E]; [rewrite <- Ep; apply before_starts, B| |exact E]. exfalso. subst q. rewrite <- Ep in B. exact (before_irrefl _ B). }
  destruct (make_path_ok (root ++ a) [] s) as (l1 & R1 & L1).
  { intros b c T B F. cbn in T. destruct (starts_linear b root (root ++ a) T (starts_app _ _)) as [G|[t ->]].
    - apply (W b c G); [|exact F]. intros ->. exact (before_irrefl _ B).
    - destruct t as [|y t].
      + rewrite app_nil_r in F. congruence.
      + apply starts_app_inv in T. apply (X (y :: t) (File c)) in F; [|discriminate]. apply (U1 _ _ F). apply before_starts, Bp, T. }
  cbn [app] in L1. set (s1 := effects s l1) in *.
  assert (L2 : forall q n, q <> [] -> (look s1 (root ++ q) = Some n <-> stored ms q n \/ (n = Dir /\ before q p))).
  { intros q n Nq. rewrite L1, (X q n Nq). split.
    - intros [H|(H1 & H2 & H3 & H4)]; [left; exact H|right]. split; [exact H2|]. apply Bp. apply starts_app_inv in H4. exact H4.
    - intros [H|[-> H]]; [left; exact H|]. destruct (look s (root ++ q)) as [[|c]|] eqn:E.
      + left. apply (X q Dir Nq). exact E.
      + exfalso. apply (X q (File c) Nq) in E. apply (U1 _ _ E). apply before_starts, H.
      + right. repeat split; [|destruct (Pb q H) as [t ->]; exists t; apply app_assoc]. exists (root ++ q). split; [destruct root; [congruence|discriminate]|reflexivity]. }
  assert (La : look s1 (root ++ a) = Some Dir).
  { destruct a as [|y a]; [rewrite app_nil_r; apply L1; left; exact Lr|]. apply L2; [discriminate|right]. split; [reflexivity|apply Bp, starts_refl]. }
  assert (Rp : removelast (root ++ p) = root ++ a) by (rewrite (removelast_app' _ root p Np), Ep, removelast_snoc; reflexivity).
  destruct oc as [c|].
  - assert (Fp : look s1 (root ++ p) = None).
    { destruct (look s1 (root ++ p)) as [n|] eqn:E; [exfalso|reflexivity]. apply (L2 p n Np) in E. destruct E as [E|[_ E]]; [|exact (before_irrefl _ E)].
      destruct n as [|c']; cbn in E.
      - destruct E as [E|(m & E & B)]; [apply (U2 c _ eq_refl E), starts_refl|apply (U2 c _ eq_refl E), before_starts, B].
      - apply (U2 c _ eq_refl E), starts_refl. }
    assert (R2 : open_wb (root ++ p) s1 = ([Create (root ++ p)], Ok tt)). { unfold open_wb. rewrite Rp, La, Fp. reflexivity. }
    set (s2 := store s1 (root ++ p) (File [])).
    assert (H2 : look s2 (root ++ p) = Some (File [])) by (unfold s2; rewrite look_store; destruct (path_dec (root ++ p) (root ++ p)); congruence).
    destruct (write_along root (root ++ p) c [] s2) as [_ H3]; [exists p; split; [exact Np|reflexivity]|exact H2|].
    exists (l1 ++ [Create (root ++ p)] ++ map (Append (root ++ p)) c). split.
    + eapply io_bind_ok; [exact R1|]. fold s1. eapply io_bind_ok; [exact R2|]. reflexivity.
    + rewrite !effects_app. fold s1. cbn [effects fold_left effect]. fold s2. fold (effects s2 (map (Append (root ++ p)) c)).
      intros q n Nq. rewrite H3, stored_snoc. cbn [app fst]. destruct (path_dec (root ++ p) (root ++ q)) as [E|E].
      * apply app_inv_head in E. subst q. split.
        -- intros H. injection H as <-. right. reflexivity.
        -- intros [H|H].
           ++ exfalso. assert (G : look s1 (root ++ p) = Some n) by (apply L2; [exact Np|left; exact H]). congruence.
           ++ destruct n as [|c']; [destruct H as [H|H]; [discriminate|exfalso; exact (before_irrefl _ H)]|]. congruence.
      * assert (E' : p <> q) by congruence. unfold s2. rewrite look_store. destruct (path_dec (root ++ p) (root ++ q)); [congruence|]. rewrite (L2 q n Nq).
        destruct n as [|c']; split; (intros [H|H]; [left; exact H|]).
        -- right. right. apply H.
        -- right. split; [reflexivity|]. destruct H as [H|H]; [discriminate|exact H].
        -- destruct H; discriminate.
        -- congruence.
  - assert (R2 : exists l2, (step e <- exists_ (root ++ p); (if e then ret tt else tell (Mkdir (root ++ p)))) s1 = (l2, Ok tt) /\
       forall q, look (effects s1 l2) q = if path_dec (root ++ p) q then Some Dir else look s1 q).
    { unfold io_bind, exists_. cbn [effects fold_left app]. destruct (look s1 (root ++ p)) as [n|] eqn:E.
      - exists []. split; [reflexivity|]. intros q. cbn [effects fold_left]. destruct (path_dec (root ++ p) q) as [F|F]; [|reflexivity]. subst q. rewrite E. f_equal.
        destruct n as [|c]; [reflexivity|exfalso]. apply (L2 p (File c) Np) in E. destruct E as [E|[E _]]; [|discriminate]. apply (U1 p c E), starts_refl.
      - exists [Mkdir (root ++ p)]. split; [reflexivity|]. intros q. cbn [effects fold_left effect]. apply look_store. }
    destruct R2 as (l2 & R2 & H2). exists (l1 ++ l2). split; [eapply io_bind_ok; [exact R1|]; exact R2|]. rewrite effects_app. fold s1.
    intros q n Nq. rewrite H2, stored_snoc. cbn [fst]. destruct (path_dec (root ++ p) (root ++ q)) as [E|E].
    + apply app_inv_head in E. subst q. split.
      * intros H. injection H as <-. right. left. reflexivity.
      * intros H. f_equal. destruct n as [|c]; [reflexivity|exfalso]. destruct H as [H|H]; [|discriminate]. apply (U1 p c H), starts_refl.
    + assert (E' : p <> q) by congruence. rewrite (L2 q n Nq). destruct n as [|c']; split; (intros [H|H]; [left; exact H|]).
      * right. right. apply H.
      * right. split; [reflexivity|]. destruct H as [H|H]; [congruence|exact H].
      * destruct H; discriminate.
      * congruence.
Qed.

Lemma extract_all_ok : forall root rest ms s, root <> [] -> look s root = Some Dir -> open_way s root -> exact s root ms -> clean (ms ++ rest) ->
  exists l, extract_all root rest s = (l, Ok tt) /\ exact (effects s l) root (ms ++ rest).
Proof.
  intros root. induction rest as [|m rest IH]; intros ms s Nr Lr W X C.
  - exists []. split; [reflexivity|]. rewrite app_nil_r. exact X.
  - rewrite snoc_app in C |- *. destruct (extract_member_ok root ms m s Nr Lr W X (clean_front _ _ C)) as (l1 & R1 & X1).
    assert (Pm : plain (fst m)). { destruct C as [P _]. apply Forall_app in P. destruct P as [P _]. apply Forall_app in P. destruct P as [_ P]. inversion P; assumption. }
    pose proof (extract_member_along root m s Pm) as A. rewrite R1 in A. cbn [fst] in A.
    destruct (IH (ms ++ [m]) (effects s l1)) as (l2 & R2 & X2).
    + exact Nr.
    + apply (inside_frame_up root l1 s A); [apply before_irrefl|exact Lr].
    + apply (inside_open_way root); [exact A|apply starts_refl|exact W].
    + exact X1.
    + exact C.
    + exists (l1 ++ l2). split; [cbn [extract_all]; eapply io_bind_ok; eassumption|]. rewrite effects_app. exact X2.
Qed.

Lemma download_ok : forall net untar home archive url ms s, sound s -> home <> [] -> look s home = None -> open_way s home -> serves net untar url archive ms ->
  exists l, download net untar home archive url s = (l, Ok tt) /\ holds (effects s l) home ms.
Proof.
  intros net untar home archive url ms s S Nh Lh W ((bytes & Hn & Hu) & C & F & Narch).
  destruct (make_path_ok home [] s) as (l1 & R1 & L1).
  { intros a c T B. cbn in T. apply (W a c T). intros ->. exact (before_irrefl _ B). }
  assert (M1 : makedirs home s = (l1, Ok tt)). { unfold makedirs, io_bind, exists_. rewrite Lh. cbn [effects fold_left app]. rewrite R1. reflexivity. }
  set (s1 := effects s l1) in *. cbn [app] in L1.
  assert (H1 : look s1 home = Some Dir). { apply L1. right. repeat split; [exact Lh| |apply starts_refl]. exists home. split; [exact Nh|reflexivity]. }
  assert (X1 : exact s1 home []).
  { intros q n Nq. split.
    - intros H. exfalso. apply L1 in H. destruct H as [H|(_ & _ & _ & H)].
      + apply (sound_above s S) in H; [congruence|exact Nh|exact Nq].
      + apply starts_length in H. rewrite app_length in H. destruct q; [congruence|cbn in H; lia].
    - destruct n; cbn; [intros [[]|(m & [] & _)]|intros []]. }
  assert (W1 : open_way s1 home). { intros a c T Na H. apply L1 in H. destruct H as [H|(_ & H & _)]; [apply (W a c T Na H)|discriminate]. }
  set (file := home ++ [archive]) in *.
  assert (N1 : look s1 file = None). { destruct (look s1 file) as [n|] eqn:E; [|reflexivity]. apply (X1 [archive] n) in E; [|discriminate]. destruct n; cbn in E; [destruct E as [[]|(m & [] & _)]|contradiction]. }
  assert (R2 : open_wb file s1 = ([Create file], Ok tt)). { unfold open_wb. unfold file at 1. rewrite removelast_snoc, H1, N1. reflexivity. }
  set (s2 := store s1 file (File [])).
  assert (H2 : look s2 file = Some (File [])) by (unfold s2; rewrite look_store; destruct (path_dec file file); congruence).
  destruct (write_along home file bytes [] s2) as [A3 L3]; [exists [archive]; split; [discriminate|reflexivity]|exact H2|]. cbn [app] in L3.
  set (s3 := effects s2 (map (Append file) bytes)) in *.
  assert (L3' : forall q, look s3 q = if path_dec file q then Some (File bytes) else look s1 q).
  { intros q. rewrite L3. unfold s2. rewrite look_store. destruct (path_dec file q); reflexivity. }
  assert (X3 : exact s3 home [([archive], Some bytes)]).
  { intros q n Nq. rewrite L3'. destruct (path_dec file (home ++ q)) as [E|E].
    - apply app_inv_head in E. subst q. destruct n as [|c]; cbn; split; intros H.
      + discriminate.
      + exfalso. destruct H as [[H|[]]|(m & [H|[]] & B)]; [discriminate|]. subst m. exact (before_irrefl _ B).
      + injection H as ->. left. reflexivity.
      + destruct H as [H|[]]. congruence.
    - rewrite (X1 q n Nq). split; intros H; exfalso.
      + destruct n; cbn in H; [destruct H as [[]|(m & [] & _)]|contradiction].
      + destruct n as [|c]; cbn in H.
        * destruct H as [[H|[]]|(m & [H|[]] & B)]; [discriminate|]. subst m. cbn in B. apply before_length in B. destruct q; [congruence|cbn in B; lia].
        * destruct H as [H|[]]. apply E. unfold file. congruence. }
  assert (H3 : look s3 home = Some Dir).
  { rewrite L3'. destruct (path_dec file home) as [E|E]; [|exact H1]. exfalso. apply (f_equal (@length _)) in E. unfold file in E. rewrite app_length in E. cbn in E. lia. }
  assert (W3 : open_way s3 home).
  { intros a c T Na H. rewrite L3' in H. destruct (path_dec file a) as [E|E]; [|apply (W1 a c T Na H)]. subst a. apply starts_length in T. unfold file in T. rewrite app_length in T. cbn in T. lia. }
  destruct C as [P U].
  assert (Ca : clean ([([archive], Some bytes)] ++ ms) \/ archive = lit "..").
  { destruct (list_eq_dec ascii_dec archive (lit "..")) as [E|E]; [right; exact E|left]. split.
    - constructor; [|exact P]. split; [discriminate|]. intros [H|[]]. apply E. exact H.
    - intros i j p c m Hi Hj T. destruct i as [|i], j as [|j]; [reflexivity| | |].
      + exfalso. cbn in Hi, Hj. injection Hi as <- <-. apply F. exists m. split; [eapply nth_error_In; exact Hj|exact T].
      + exfalso. cbn in Hi, Hj. injection Hj as <-. cbn in T. assert (Ip : In (p, Some c) ms) by (eapply nth_error_In; exact Hi).
        rewrite Forall_forall in P. destruct (P _ Ip) as [Np _]. cbn in Np. destruct T as [t T]. destruct p as [|y p]; [congruence|]. cbn in T. injection T as -> T.
        destruct p; [|discriminate]. apply F. exists ([y], Some c). split; [exact Ip|apply starts_refl].
      + f_equal. cbn in Hi, Hj. eapply U; eassumption. }
  destruct Ca as [Ca|Ca]; [|exfalso; apply Narch; exact Ca].
  destruct (extract_all_ok home ms [([archive], Some bytes)] s3 Nh H3 W3 X3 Ca) as (l4 & R4 & X4). set (s4 := effects s3 l4) in *.
  pose proof (extract_all_along home ms s3 P) as A4. rewrite R4 in A4. cbn [fst] in A4.
  assert (H4 : look s4 home = Some Dir) by (apply (inside_frame_up home l4 s3 A4); [apply before_irrefl|exact H3]).
  assert (H5 : look s4 file = Some (File bytes)). { apply (X4 [archive] (File bytes)); [discriminate|]. left. reflexivity. }
  exists (l1 ++ [Ask url] ++ [] ++ [Create file] ++ [] ++ map (Append file) bytes ++ [] ++ l4 ++ [] ++ [Remove file]). split.
  - unfold download. fold file. eapply io_bind_ok; [exact M1|]. fold s1. eapply io_bind_ok; [reflexivity|]. cbn [effects fold_left effect].
    eapply io_bind_ok; [unfold lift; rewrite Hn; reflexivity|]. cbn [effects fold_left effect].
    eapply io_bind_ok; [exact R2|]. cbn [effects fold_left effect]. fold s2. eapply io_bind_ok; [reflexivity|]. cbn [effects fold_left effect].
    eapply io_bind_ok; [reflexivity|]. fold s3. eapply io_bind_ok; [unfold read_file; rewrite L3'; destruct (path_dec file file); [reflexivity|congruence]|].
    cbn [effects fold_left effect]. rewrite Hu. cbn [fst snd]. eapply io_bind_ok; [exact R4|]. fold s4. eapply io_bind_ok; [reflexivity|]. cbn [effects fold_left effect].
    unfold remove_file. rewrite H5. reflexivity.
  - rewrite !effects_app. cbn [effects fold_left effect]. fold s1. fold s2. fold (effects s2 (map (Append file) bytes)). fold s3. fold (effects s3 l4). fold s4.
    split.
    + rewrite look_drop. destruct (path_dec file home) as [E|E]; [|exact H4]. exfalso. apply (f_equal (@length _)) in E. unfold file in E. rewrite app_length in E. cbn in E. lia.
    + intros q n Nq. rewrite look_drop. destruct (path_dec file (home ++ q)) as [E|E].
      * apply app_inv_head in E. subst q. split; [discriminate|]. intros H. exfalso. apply F. destruct n as [|c]; cbn in H.
        -- destruct H as [H|(m & H & B)]; [exists ([archive], None); split; [exact H|apply starts_refl]|exists m; split; [exact H|apply before_starts, B]].
        -- exists ([archive], Some c). split; [exact H|apply starts_refl].
      * rewrite (X4 q n Nq). destruct n as [|c]; cbn; split.
        -- intros [[H|H]|(m & [H|H] & B)]; [discriminate|tauto| |right; exists m; tauto]. subst m. cbn in B. apply before_length in B. destruct q; [congruence|cbn in B; lia].
        -- intros [H|(m & H & B)]; [tauto|right; exists m; tauto].
        -- intros [H|H]; [|exact H]. exfalso. apply E. unfold file. congruence.
        -- tauto.
Qed.
