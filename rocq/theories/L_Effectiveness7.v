(** Proofs about document_graded_relevance (C54). *)
From Coq Require Import List ZArith Bool Lia Arith Reals Lra Sorted Permutation.
From Verif Require Import Base Num Lists M_Dataset M_NDCG S_Dataset M_Ensemble S_Ensemble L_Ensemble L_Ensemble2 L_Ensemble3 L_Loaders L_Topology3 L_Feature4 L_Feature5
  M_Effectiveness S_Effectiveness L_Effectiveness L_Effectiveness2 L_Effectiveness3 L_Effectiveness4 L_Effectiveness5 L_Effectiveness6.
Import ListNotations.
Local Open Scope Z_scope.

(** ** The labels *)
Definition dedupe : list R -> list R :=
  fold_right (fun v acc => match acc with a :: _ => if Reqb v a then acc else v :: acc | [] => [v] end) [].
Lemma nunique_real (l : list R) : nunique (N:=RE) l = dedupe (isort Rleb l).
Proof. reflexivity. Qed.
Lemma dedupe_in l x : In x (dedupe l) <-> In x l.
Proof.
  induction l as [|v l IH]; [reflexivity|]. cbn [dedupe fold_right]. fold (dedupe l). destruct (dedupe l) as [|a r] eqn:E.
  - cbn [In] in *. tauto.
  - destruct (Reqb v a) eqn:Ev.
    + apply Reqb_true in Ev. subst a. cbn [In] in *. tauto.
    + cbn [In] in *. tauto.
Qed.
Lemma dedupe_sorted l : StronglySorted Rle l -> StronglySorted Rlt (dedupe l).
Proof.
  induction 1 as [|v l Hl IH Hv]; [constructor|]. cbn [dedupe fold_right]. fold (dedupe l). destruct (dedupe l) as [|a r] eqn:E; [repeat constructor|].
  destruct (Reqb v a) eqn:Ev; [exact IH|]. constructor; [exact IH|]. rewrite Forall_forall in *.
  assert (Ha : (v < a)%R).
  { assert (In a l) by (apply dedupe_in; rewrite E; left; reflexivity). specialize (Hv a H). destruct Hv as [Hv| ->]; [exact Hv|]. exfalso. rewrite (proj2 (Reqb_true a a) eq_refl) in Ev. discriminate. }
  intros x [<-|Hx]; [exact Ha|]. inversion IH as [|a' r' _ Hr']; subst. rewrite Forall_forall in Hr'. specialize (Hr' x Hx). lra.
Qed.
Lemma sorted_increasing l : StronglySorted Rlt l -> increasing l.
Proof.
  unfold increasing. induction 1 as [|v l Hl IH Hv]; intros [|i] [|j] a b Hij Ha Hb; cbn [nth_error] in *; try discriminate; try lia.
  - injection Ha as <-. rewrite Forall_forall in Hv. apply Hv. exact (nth_error_In _ _ Hb).
  - apply (IH i j a b); [lia|exact Ha|exact Hb].
Qed.
Lemma isort_r l : StronglySorted Rle (isort Rleb l).
Proof.
  assert (G : StronglySorted (fun a b => Rleb a b = true) (isort Rleb l)).
  { apply isort_sorted; intros; rewrite ?Rleb_true in *; lra. }
  induction G as [|a s G IH Ha]; constructor; [exact IH|]. rewrite Forall_forall in *. intros x Hx. apply Rleb_true, Ha. exact Hx.
Qed.
Lemma nunique_ok (l : list R) : increasing (nunique (N:=RE) l) /\ forall x, In x (nunique (N:=RE) l) <-> In x l.
Proof.
  rewrite nunique_real. split; [apply sorted_increasing, dedupe_sorted, isort_r|]. intros x. rewrite dedupe_in. split; apply Permutation_in; [|apply Permutation_sym]; apply isort_perm.
Qed.
Lemma rel_labels_ok (ds : list (obj (N:=RE))) labels : rel_labels (N:=RE) ds = Ok labels ->
  increasing labels /\ (forall x, In x labels <-> exists o, In o ds /\ In x (ds_y (snd o))) /\
  (forall o o', In o ds -> In o' ds -> length (ds_y (snd o)) = length (ds_y (snd o'))).
Proof.
  unfold rel_labels. destruct ds as [|o r].
  - intros H. injection H as <-. split; [intros [|i] j a b _ Ha; discriminate|]. split; [intros x; split; [intros []|intros [o [[] _]]]|intros o o' []].
  - destruct (forallb (fun o' => (length (ds_y (snd o')) =? length (ds_y (snd o)))%nat) r) eqn:Ef; [|discriminate]. intros H. injection H as <-.
    destruct (nunique_ok (concat (map (fun o => ds_y (snd o)) (o :: r)))) as [N1 N2]. split; [exact N1|]. split.
    + intros x. rewrite N2, in_concat. split.
      * intros [l [Hl Hx]]. apply in_map_iff in Hl. destruct Hl as [o' [<- Ho']]. exists o'. auto.
      * intros [o' [Ho' Hx]]. exists (ds_y (snd o')). split; [apply in_map_iff; exists o'; auto|exact Hx].
    + rewrite forallb_forall in Ef. assert (G : forall o', In o' (o :: r) -> length (ds_y (snd o')) = length (ds_y (snd o))).
      { intros o' [<-|Ho']; [reflexivity|]. apply Nat.eqb_eq, Ef. exact Ho'. }
      intros o1 o2 H1 H2. rewrite (G o1 H1), (G o2 H2). reflexivity.
Qed.
Lemma rel_labels_err (ds : list (obj (N:=RE))) o o' : In o ds -> In o' ds -> length (ds_y (snd o)) <> length (ds_y (snd o')) -> rel_labels (N:=RE) ds = Err ValueError.
Proof.
  intros Ho Ho' Hne. destruct (rel_labels (N:=RE) ds) as [l|e] eqn:E.
  - destruct (rel_labels_ok ds l E) as [_ [_ H]]. destruct (Hne (H o o' Ho Ho')).
  - unfold rel_labels in E. destruct ds as [|a r]; [discriminate|]. match type of E with (if ?x then _ else _) = _ => destruct x end; [discriminate|]. injection E as <-. reflexivity.
Qed.
Lemma scores_with_label_real (d : dataset RE) (y : list R) l v : scores_with_label (N:=RE) d y l = Ok v -> v = label_members l (ds_y d) y.
Proof. intros H. exact (select_from (fun k => Reqb k l) (ds_y d) y [] v H). Qed.

Section Real.
Variable (rowsum : list RE -> RE) (digest : list (list RE) -> list RE -> list Z -> Z).
Hypothesis rowsum_exact : forall l, rowsum l = Rtotal l.
Variable (st : list (model RE)) (sh : list shape) (ds : list (obj (N:=RE))).
Hypothesis Hr : ready digest st sh ds.

Lemma alone_ok i o y : In o ds -> (do a <- alone (N:=RE) rowsum digest st i o false; y_pred a) = Ok y ->
  exists m s, nth_error st i = Some m /\ nth_error sh i = Some s /\ y = scores_of m s (snd o).
Proof.
  intros Ho E. destruct (nth_error st i) as [m|] eqn:Hm; [|unfold alone in E; rewrite Hm in E; discriminate].
  destruct Hr as [H1 _]. destruct (Forall2_nth _ _ _ _ _ H1 Hm) as [s [Hs _]]. exists m, s. split; [reflexivity|]. split; [exact Hs|].
  destruct (alone_real rowsum digest rowsum_exact st sh ds Hr i o m s Ho Hm Hs) as [[_ E1]|[_ [E1 _]]]; rewrite E1 in E; [discriminate|]. cbn [bind y_pred] in E. injection E as <-. reflexivity.
Qed.

(** The first loop: all the scores. *)
Lemma all_scores ms cache st' ys :
  mapST (fun st o => mapST (fun st i => do r <- score_in (N:=RE) rowsum digest st i o false cache; do y <- y_pred (snd r); do _ <- nmin (N:=RE) y; Ok (fst r, y)) st ms) st ds = Ok (st', ys) ->
  after rowsum digest st ds st' /\ (forall x, In x (concat (concat ys)) <-> document_score st sh ds ms x).
Proof.
  intros E. pose proof (transparent_cached rowsum digest rowsum_exact st sh ds cache Hr) as T.
  pose proof (per_dataset (N:=RE) rowsum digest st ds cache _ T false (fun i o a => do y <- y_pred a; do _ <- nmin (N:=RE) y; Ok y)
    (fun st o i => do r <- score_in (N:=RE) rowsum digest st i o false cache; do y <- y_pred (snd r); do _ <- nmin (N:=RE) y; Ok (fst r, y)) ms) as P.
  specialize (P ltac:(intros st1 o i _ _; cbv beta; destruct (score_in rowsum digest st1 i o false cache) as [r|]; cbn [bind]; [|reflexivity];
    destruct (y_pred (snd r)) as [y|]; cbn [bind]; [|reflexivity]; destruct (nmin y); reflexivity) st (proj1 T) ds ltac:(intros x Hx; exact Hx)).
  match type of P with match ?x with _ => _ end => destruct x as [bs|e] eqn:Eb end; [|pose proof (eq_trans (eq_sym E) P); discriminate].
  destruct P as [st2 [P Hst2]]. pose proof (eq_trans (eq_sym E) P) as EP. injection EP as -> ->. split; [exact Hst2|].
  assert (G : forall o i y, In o ds -> (do a <- alone (N:=RE) rowsum digest st i o false; do y <- y_pred a; do _ <- nmin (N:=RE) y; Ok y) = Ok y ->
    exists m s, nth_error st i = Some m /\ nth_error sh i = Some s /\ y = scores_of m s (snd o)).
  { intros o i y Ho Ey. apply (alone_ok i o y Ho). destruct (alone rowsum digest st i o false) as [a|]; cbn [bind] in *; [|discriminate]. destruct (y_pred a) as [y'|]; cbn [bind] in *; [|discriminate].
    destruct (nmin y'); cbn [bind] in *; [exact Ey|discriminate]. }
  intros x. rewrite in_concat. split.
  - intros [y [Hy Hx]]. apply in_concat in Hy. destruct Hy as [row [Hrow Hy]]. destruct (mapM_from _ _ _ _ Eb Hrow) as [o [Ho Er]]. destruct (mapM_from _ _ _ _ Er Hy) as [i [Hi Ey]].
    destruct (G o i y Ho Ey) as [m [s [Hm [Hs ->]]]]. exists o, i, m, s. auto.
  - intros [o [i [m [s [Ho [Hi [Hm [Hs Hx]]]]]]]]. destruct (mapM_to _ _ _ _ Eb Ho) as [row [Hrow Er]]. destruct (mapM_to _ _ _ _ Er Hi) as [y [Hy Ey]].
    destruct (G o i y Ho Ey) as [m' [s' [Hm' [Hs' ->]]]]. rewrite Hm in Hm'. injection Hm' as <-. rewrite Hs in Hs'. injection Hs' as <-.
    exists (scores_of m s (snd o)). split; [|exact Hx]. apply in_concat. exists row. auto.
Qed.

(** The second loop. *)
Definition curve_for (edges : list RE) (o : obj (N:=RE)) (l : RE) (a : answer (N:=RE)) : res (list (option RE)) :=
  do y <- y_pred a; do u <- scores_with_label (N:=RE) (snd o) y l; cumulative (N:=RE) u edges.
Lemma second_loop ms cache labels edges st1 : after rowsum digest st ds st1 ->
  match mapM (fun o => mapM (fun i => mapM (fun l => do a <- alone (N:=RE) rowsum digest st i o false; curve_for edges o l a) labels) ms) ds with
  | Ok bs => exists st', mapST (fun st o => mapST (fun st i =>
               mapST (fun st l => do r <- score_in (N:=RE) rowsum digest st i o false cache; do y <- y_pred (snd r); do a <- scores_with_label (N:=RE) (snd o) y l; do c <- cumulative (N:=RE) a edges; Ok (fst r, c)) st labels) st ms) st1 ds
               = Ok (st', bs) /\ after rowsum digest st ds st'
  | Err e => mapST (fun st o => mapST (fun st i =>
               mapST (fun st l => do r <- score_in (N:=RE) rowsum digest st i o false cache; do y <- y_pred (snd r); do a <- scores_with_label (N:=RE) (snd o) y l; do c <- cumulative (N:=RE) a edges; Ok (fst r, c)) st labels) st ms) st1 ds
               = Err e
  end.
Proof.
  intros H1. pose proof (transparent_cached rowsum digest rowsum_exact st sh ds cache Hr) as [_ [T _]].
  apply (mapST_inv (after rowsum digest st ds)); [|exact H1]. clear st1 H1. intros s1 o Hs1 Ho. apply (mapST_inv (after rowsum digest st ds)); [|exact Hs1]. clear s1 Hs1. intros s1 i Hs1 _.
  apply (mapST_inv (after rowsum digest st ds)); [|exact Hs1]. clear s1 Hs1. intros s1 l Hs1 _. specialize (T s1 i o false Hs1 Ho).
  destruct (alone rowsum digest st i o false) as [a|e]; cbn [bind]; [|rewrite T; reflexivity]. destruct T as [s2 [-> Hs2]]. cbn [bind fst snd]. unfold curve_for.
  destruct (y_pred a) as [y|]; cbn [bind]; [|reflexivity]. destruct (scores_with_label (snd o) y l) as [u|]; cbn [bind]; [|reflexivity]. destruct (cumulative u edges) as [c|]; cbn [bind]; [|reflexivity].
  exists s2. split; [reflexivity|exact Hs2].
Qed.

Theorem C54_documents_lemma ms bins start stop cache st' labels coords data :
  document_graded_relevance (N:=RE) rowsum digest st ds ms bins start stop cache = Ok (st', (labels, coords, data)) ->
  exists lo hi,
    bound_of start (least (document_score st sh ds ms)) lo /\ bound_of stop (greatest (document_score st sh ds ms)) hi /\ 0 < bins /\ 
    increasing labels /\ (forall x, In x labels <-> exists o, In o ds /\ In x (ds_y (snd o))) /\ (labels <> [] -> (lo <= hi)%R) /\
    length data = length ds /\
    (forall a j c o i l, nth_error ds a = Some o -> nth_error ms j = Some i -> nth_error labels c = Some l ->
       exists m s curve, nth_error st i = Some m /\ nth_error sh i = Some s /\ at3 data a j c = Some curve /\
         is_curve lo hi (Z.to_nat bins) (label_members l (ds_y (snd o)) (scores_of m s (snd o))) curve /\ grows_in_unit curve /\
         (start = None -> stop = None -> label_members l (ds_y (snd o)) (scores_of m s (snd o)) <> [] -> nth_error curve (Z.to_nat bins - 1) = Some (Some 1%R))) /\
    (forall q, (q < Z.to_nat bins)%nat -> nth_error coords q = Some (lo + INR q * (hi - lo) / INR (Z.to_nat bins) + 1 / INR (Z.to_nat bins))%R).
Proof.
  unfold document_graded_relevance. intros E. apply bind_ok in E. destruct E as [[st1 ys] [Ey E]]. cbn [fst snd] in E. apply bind_ok in E. destruct E as [edges [Ee E]].
  apply bind_ok in E. destruct E as [lb [El E]]. apply bind_ok in E. destruct E as [[st2 dt] [Ed E]]. apply bind_ok in E. destruct E as [cs [Ec E]]. injection E as <- <- <- <-.
  destruct (all_scores ms cache st1 ys Ey) as [Hst1 Hall]. destruct (edges_of_real _ _ _ _ _ Ee) as [Hz [lo [hi [Hlo [Hhi Hedges]]]]]. subst edges.
  assert (Hlo' : bound_of start (least (document_score st sh ds ms)) lo) by (revert Hlo; apply bound_ext; intros v; apply least_ext; exact Hall).
  assert (Hhi' : bound_of stop (greatest (document_score st sh ds ms)) hi) by (revert Hhi; apply bound_ext; intros v; apply greatest_ext; exact Hall).
  destruct (rel_labels_ok ds lb El) as [Hinc [Hin _]]. pose proof (coordinates_nonzero _ _ _ Ec) as Hnz. assert (Hb : 0 < bins) by lia. set (b := Z.to_nat bins) in *. assert (Hb' : (0 < b)%nat) by (unfold b; lia).
  pose proof (second_loop ms cache lb (linspace (N:=RE) lo hi b) st1 Hst1) as P.
  match type of P with match ?x with _ => _ end => destruct x as [bs|e] eqn:Eb end; [|pose proof (eq_trans (eq_sym Ed) P); discriminate].
  destruct P as [st3 [P _]]. pose proof (eq_trans (eq_sym Ed) P) as EP. injection EP as -> ->. clear P Ed.
  assert (Hcell : forall o i l c, In o ds -> (do a <- alone (N:=RE) rowsum digest st i o false; curve_for (linspace (N:=RE) lo hi b) o l a) = Ok c ->
    exists m s, nth_error st i = Some m /\ nth_error sh i = Some s /\ cumulative (N:=RE) (label_members l (ds_y (snd o)) (scores_of m s (snd o))) (linspace (N:=RE) lo hi b) = Ok c).
  { intros o i l c Ho Ecell. destruct (alone rowsum digest st i o false) as [a|] eqn:Ea; cbn [bind] in Ecell; [|discriminate]. unfold curve_for in Ecell.
    destruct (y_pred a) as [y|] eqn:Eya; cbn [bind] in Ecell; [|discriminate]. destruct (alone_ok i o y Ho ltac:(rewrite Ea; exact Eya)) as [m [s [Hm [Hs ->]]]].
    exists m, s. split; [exact Hm|]. split; [exact Hs|]. apply bind_ok in Ecell. destruct Ecell as [u [Eu Ecell]]. apply scores_with_label_real in Eu. subst u. exact Ecell. }
  assert (Hle : lb <> [] -> (lo <= hi)%R).
  { intros Hlb. destruct (Rle_or_lt lo hi) as [G|G]; [exact G|exfalso]. destruct lb as [|l lb']; [congruence|].
    unfold edges_of in Ee. apply bind_ok in Ee. destruct Ee as [x0 [Ex0 _]]. destruct (nmin_real _ _ Ex0) as [Hx0 _]. apply Hall in Hx0. destruct Hx0 as [o [i [m0 [s0 [Ho [Hi _]]]]]].
    destruct (mapM_to _ _ _ _ Eb Ho) as [c1 [_ E1]]. destruct (mapM_to _ _ _ _ E1 Hi) as [c2 [_ E2]]. destruct (mapM_to _ _ _ l E2 (or_introl eq_refl)) as [c3 [_ E3]].
    destruct (Hcell o i l c3 Ho E3) as [m [s [_ [_ E4]]]]. pose proof (eq_trans (eq_sym E4) (cumulative_reversed _ lo hi b Hb' G)). discriminate. }
  exists lo, hi. split; [exact Hlo'|]. split; [exact Hhi'|]. split; [exact Hb|]. split; [exact Hinc|]. split; [exact Hin|]. split; [exact Hle|]. split; [apply (mapM_length _ _ Eb)|]. split.
  - intros a j c o i l Ha Hj Hc. destruct (mapM_nth _ _ _ _ _ Eb Ha) as [c1 [Hc1 E1]]. destruct (mapM_nth _ _ _ _ _ E1 Hj) as [c2 [Hc2 E2]]. destruct (mapM_nth _ _ _ _ _ E2 Hc) as [curve [Hc3 E3]].
    pose proof (nth_error_In _ _ Ha) as Ho. destruct (Hcell o i l curve Ho E3) as [m [s [Hm [Hs E4]]]].
    assert (Hlh : (lo <= hi)%R) by (apply Hle; intros ->; destruct c; discriminate).
    destruct (cumulative_real (label_members l (ds_y (snd o)) (scores_of m s (snd o))) lo hi b Hb' Hlh) as [c' [Ec' Hc']]. pose proof (eq_trans (eq_sym E4) Ec') as E5. injection E5 as ->.
    exists m, s, c'. split; [exact Hm|]. split; [exact Hs|]. split; [exact (at3_ok _ _ _ _ _ _ _ Hc1 Hc2 Hc3)|]. split; [exact Hc'|]. split; [exact (curve_grows lo hi b _ _ Hlh Hc')|].
    intros -> -> Hne. apply (curve_ends lo hi b _ c' Hb' Hne Hc'). intros x Hx. cbn [bound_of] in Hlo', Hhi'.
    assert (Hq : document_score st sh ds ms x).
    { exists o, i, m, s. split; [exact Ho|]. split; [exact (nth_error_In _ _ Hj)|]. split; [exact Hm|]. split; [exact Hs|]. unfold label_members in Hx. apply in_map_iff in Hx. destruct Hx as [[k v] [<- Hx]].
      apply filter_In in Hx. destruct Hx as [Hx _]. exact (in_combine_r _ _ _ _ Hx). }
    split; [apply Hlo'; exact Hq|apply Hhi'; exact Hq].
  - intros q Hq. destruct (coordinates_real lo hi bins _ cs Ec Hb) as [_ C]. apply C. exact Hq.
Qed.

(** Data sets of different sizes are refused. *)
Theorem C69_lemma ms bins start stop cache o o' : In o ds -> In o' ds -> n_instances (snd o) <> n_instances (snd o') ->
  (exists e, document_graded_relevance (N:=RE) rowsum digest st ds ms bins start stop cache = Err e) /\
  forall to_int skip, rank_confusion_matrix (N:=RE) rowsum digest to_int st ds ms skip cache = Err ValueError.
Proof.
  intros Ho Ho' Hne. pose proof (rel_labels_err ds o o' Ho Ho' Hne) as E. split.
  - unfold document_graded_relevance. match goal with |- exists e, bind ?x _ = _ => destruct x as [r|e0] end; cbn [bind]; [|eexists; reflexivity].
    match goal with |- exists e, bind ?x _ = _ => destruct x as [ed|e0] end; cbn [bind]; [|eexists; reflexivity]. rewrite E. eexists. reflexivity.
  - intros to_int skip. unfold rank_confusion_matrix. rewrite E. reflexivity.
Qed.
End Real.
