(** Proofs: metrics on NaN labels. *)
From Coq Require Import List ZArith Lia Bool Permutation.
From Verif Require Import Base Lists Num M_Metrics S_Metrics L_Metrics S_NanScores L_NanScores L_MetricError2.
Import ListNotations.

Section Labels.
Context {N : num}.
Lemma nan_not_self (HN : has_nans N) (v : N) : nisnan v = true -> nleb v v = false.
Proof. intros H. apply (hn_compare _ HN). auto. Qed.
Lemma self (HN : has_nans N) (v : N) : nisnan v = false -> nleb v v = true.
Proof. intros H. destruct (hn_total _ HN v v H H); assumption. Qed.
Definition max_step (m v : N) : N := if nleb m v || negb (nleb v v) then v else m.
Lemma max_keeps (HN : has_nans N) (l : list N) : forall m, nisnan m = true \/ existsb nisnan l = true -> nisnan (fold_left max_step l m) = true.
Proof.
  induction l as [|v l IH]; intros m [H|H]; cbn [fold_left existsb] in *; auto; try discriminate.
  - apply IH. left. unfold max_step. destruct (hn_compare _ HN m v (or_introl H)) as [-> _]. cbn [orb].
    destruct (nisnan v) eqn:V; [rewrite nan_not_self by auto; exact V|rewrite self by auto; exact H].
  - apply IH. destruct (nisnan v) eqn:V; cbn [orb] in H; [|right; exact H]. left. unfold max_step. rewrite (nan_not_self HN v V), orb_true_r. exact V.
Qed.
Lemma max_of_nan (HN : has_nans N) (y : list N) : existsb nisnan y = true -> exists m, nmax y = Ok m /\ nisnan m = true.
Proof.
  destruct y as [|x y]; [discriminate|]. intros H. eexists. split; [reflexivity|]. apply (max_keeps HN). cbn [existsb] in H. apply orb_prop in H. exact H.
Qed.
Lemma max_of_numbers (HN : has_nans N) (y : list N) : y <> [] -> existsb nisnan y = false ->
  exists m, nmax y = Ok m /\ In m y /\ forall v, In v y -> nleb v m = true.
Proof.
  destruct y as [|x y]; [congruence|]. intros _ H. cbn [existsb] in H. apply orb_false_iff in H as [Hx Hy].
  eexists. split; [reflexivity|]. change (fun m v : N => if nleb m v || negb (nleb v v) then v else m) with max_step.
  revert x Hx. induction y as [|v y IH]; intros x Hx; cbn [fold_left].
  - split; [left; reflexivity|]. intros w [<-|[]]. apply self; auto.
  - cbn [existsb] in Hy. apply orb_false_iff in Hy as [Hv Hy].
    assert (E : max_step x v = if nleb x v then v else x) by (unfold max_step; rewrite (self HN v Hv); cbn [negb]; rewrite orb_false_r; reflexivity).
    rewrite E. destruct (nleb x v) eqn:L.
    + destruct (IH Hy v Hv) as [I M]. split; [right; exact I|]. intros w [<-|Hw]; [|apply M; exact Hw]. eapply (hn_trans _ HN); [exact L|]. apply M. left. reflexivity.
    + destruct (IH Hy x Hx) as [I M]. split; [destruct I as [I|I]; [left; exact I|right; right; exact I]|].
      intros w [<-|[<-|Hw]]; [apply M; left; reflexivity| |apply M; right; exact Hw].
      eapply (hn_trans _ HN); [|apply M; left; reflexivity]. destruct (hn_total _ HN x v Hx Hv); [congruence|assumption].
Qed.

Lemma taken argsort cutoff (y s : list N) : np_sorting argsort -> length y = length s ->
  exists l, take y (order argsort cutoff s) = Ok l /\ length l = retrieved cutoff (length s) /\ length (order argsort cutoff s) = length l.
Proof.
  intros H HL. pose proof (np_len argsort s H) as LE.
  assert (T : take y (order argsort cutoff s) = Ok (map (fun i => nth i y nzero) (order argsort cutoff s))).
  { apply take_ok. intros j Hj. rewrite order_eq in Hj by exact LE. apply In_firstn in Hj. apply in_rev in Hj. rewrite HL. eapply np_bound; eauto. }
  eexists. split; [exact T|]. rewrite map_length. split; [|reflexivity]. rewrite order_eq by exact LE. rewrite firstn_length, rev_length, LE.
  unfold retrieved. destruct cutoff; [|lia]. unfold slice_to. destruct (Z.ltb_spec z 0); lia.
Qed.
Lemma utility_nan (HN : has_nans N) (m v : N) : nisnan m = true -> nisnan (utility m v) = true.
Proof. intros H. apply (hn_arith _ HN). right. apply (hn_fun _ HN). exact H. Qed.
Lemma err_fold (HN : has_nans N) (m : N) l : nisnan m = true -> forall st, nisnan (snd st) = true \/ l <> [] -> nisnan (snd (fold_left (err_step m) l st)) = true.
Proof.
  intros H. induction l as [|v l IH]; intros [[i p] e] [E|E]; cbn [fold_left]; auto; try congruence.
  - apply IH. left. cbn [err_step snd]. apply (hn_arith _ HN). left. exact E.
  - apply IH. left. cbn [err_step snd]. apply (hn_arith _ HN). right. apply (hn_arith _ HN). right. apply (hn_arith _ HN). left. apply utility_nan; auto.
Qed.
Lemma pfound_fold (HN : has_nans N) (pa m : N) l : nisnan m = true -> forall st, nisnan (snd st) = true \/ l <> [] -> nisnan (snd (fold_left (pfound_step pa m) l st)) = true.
Proof.
  intros H. induction l as [|v l IH]; intros [[i p] e] [E|E]; cbn [fold_left]; auto; try congruence.
  - apply IH. left. cbn [pfound_step snd]. apply (hn_arith _ HN). left. exact E.
  - apply IH. left. cbn [pfound_step snd]. apply (hn_arith _ HN). right. apply (hn_arith _ HN). left. apply (hn_arith _ HN). right. apply utility_nan; auto.
Qed.
Theorem cascade_nan (HN : has_nans N) argsort (m : metric N) cutoff (y s : list N) : np_sorting argsort -> m = ERR cutoff \/ (exists pa, m = Pfound cutoff pa) ->
  length y = length s -> existsb nisnan y = true -> looks_at_some cutoff (length y) ->
  exists v, eval_per_query argsort m y s = Ok v /\ nisnan v = true.
Proof.
  intros H M HL E L. destruct (max_of_nan HN y E) as (t & T & Nt). destruct (taken argsort cutoff y s H HL) as (l & Tl & Ll & _).
  assert (l <> []) by (intros ->; unfold looks_at_some in L; cbn in Ll; rewrite HL in L; lia).
  destruct M as [->|[pa ->]]; cbn [eval_per_query]; unfold err, pfound; rewrite T, Tl; cbn [bind]; eexists; (split; [reflexivity|]).
  - apply (err_fold HN); auto.
  - apply (pfound_fold HN); auto.
Qed.
Theorem best_nan (HN : has_nans N) argsort cutoff (y s : list N) : np_sorting argsort -> length y = length s -> existsb nisnan y = true -> looks_at_some cutoff (length y) ->
  eval_per_query argsort (PrecisionMax cutoff) y s = Ok (ndiv (nofnat 0) (nofnat (retrieved cutoff (length s)))).
Proof.
  intros H HL E L. destruct (max_of_nan HN y E) as (t & T & Nt). destruct (taken argsort cutoff y s H HL) as (l & Tl & Ll & Lo).
  cbn [eval_per_query]. unfold precision_max. cbv zeta. rewrite T, Tl. cbn [bind]. rewrite Lo, Ll.
  unfold looks_at_some in L. rewrite HL in L. destruct (Nat.eqb_spec (retrieved cutoff (length s)) 0); [lia|].
  replace (count (fun v => nleb t v) l) with 0%nat; [reflexivity|]. clear - HN Nt. unfold count. induction l as [|v l IH]; [reflexivity|].
  cbn [filter]. destruct (hn_compare _ HN t v (or_introl Nt)) as [-> _]. exact IH.
Qed.

(** Only the comparison of a label with the threshold matters. *)
Lemma count_same (p : N -> bool) (f : N -> N) l : (forall v, In v l -> p (f v) = p v) -> count p (map f l) = count p l.
Proof.
  intros H. unfold count. induction l as [|v l IH]; [reflexivity|]. cbn [map filter]. rewrite (H v) by (left; reflexivity).
  destruct (p v); cbn [length]; rewrite IH by (intros w Hw; apply H; right; exact Hw); reflexivity.
Qed.
Theorem threshold_only argsort (thr : N) (m : metric N) (f : N -> N) y s :
  (exists c, m = Precision c thr) \/ (exists c nr, m = Recall nr c thr) \/ (exists c, m = MRR c thr) \/ (exists c p, m = RBP c thr p) ->
  (forall v, In v y -> nleb thr (f v) = nleb thr v) ->
  eval_per_query argsort m (map f y) s = eval_per_query argsort m y s.
Proof.
  intros M F. destruct M as [(c & ->)|[(c & nr & ->)|[(c & ->)|(c & p & ->)]]]; cbn [eval_per_query].
  - unfold precision. cbv zeta. rewrite (take_map f). destruct (take y (order argsort c s)) as [l|] eqn:T; [|reflexivity]. cbn [bind].
    rewrite (count_same _ f) by (intros v Hv; apply F; eapply take_In; eauto). reflexivity.
  - unfold recall. cbv zeta. rewrite (take_map f). destruct (take y (order argsort c s)) as [l|] eqn:T; [|reflexivity]. cbn [bind].
    rewrite !(count_same _ f) by (intros v Hv; apply F; try exact Hv; eapply take_In; eauto). reflexivity.
  - unfold mrr. assert (E : forall idx i, mrr_loop thr (map f y) i idx = mrr_loop thr y i idx); [|rewrite E; reflexivity].
    induction idx as [|j idx IH]; intros i; cbn [mrr_loop]; [reflexivity|]. rewrite nth_error_map. destruct (nth_error y j) as [v|] eqn:V; [|reflexivity].
    cbn [option_map of_option bind]. rewrite (F v) by (eapply nth_error_In; eauto). rewrite IH. reflexivity.
  - unfold rbp. rewrite (take_map f). destruct (take y (order argsort c s)) as [l|] eqn:T; [|reflexivity]. cbn [bind]. do 3 f_equal. rewrite map_length.
    assert (I : forall v, In v l -> In v y) by (intros v Hv; eapply take_In; eauto). clear T. generalize (seq 0 (length l)) as is.
    induction l as [|v l IH]; intros [|i is]; cbn [map combine]; try reflexivity. cbn [fst snd]. rewrite F by (apply I; left; reflexivity). f_equal.
    apply IH. intros u Hu. apply I. right. exact Hu.
Qed.
End Labels.
