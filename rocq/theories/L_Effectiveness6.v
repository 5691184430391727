(** Proofs about query_class_performance (C55), tree_wise_average_contribution and
    document_graded_relevance. *)
From Coq Require Import List ZArith Bool Lia Arith Reals Lra Sorted Permutation.
From Verif Require Import Base Num Lists M_Dataset M_NDCG S_Dataset M_Ensemble S_Ensemble L_Ensemble L_Ensemble2 L_Ensemble3 L_Loaders L_Topology3 L_Feature4 L_Feature5
  M_Effectiveness S_Effectiveness L_Effectiveness L_Effectiveness2 L_Effectiveness3 L_Effectiveness4 L_Effectiveness5.
Import ListNotations.
Local Open Scope Z_scope.

(** ** Selecting by index *)
Section Select.
Context {A B : Type} (p : B -> bool).
Lemma select_from (keys : list B) : forall (u pre : list A) v,
  mapM (fun i => py_get (pre ++ u) i)
       (map fst (filter (fun q => p (snd q)) (combine (zrange (Z.of_nat (length pre)) (Z.of_nat (length pre) + Z.of_nat (length keys))) keys))) = Ok v ->
  v = map snd (filter (fun q => p (fst q)) (combine keys u)).
Proof.
  induction keys as [|k keys IH]; intros u pre v H.
  - cbn [length] in H. rewrite Z.add_0_r in H. unfold zrange in H. rewrite Z.sub_diag in H. cbn [Z.to_nat seq map combine filter mapM] in H. injection H as <-. reflexivity.
  - rewrite zrange_cons in H by (cbn [length]; lia). cbn [combine filter snd] in H. destruct u as [|x u].
    + rewrite app_nil_r in H. assert (Hn : forall keys' j v', (Z.of_nat (length pre) <= j) ->
        mapM (fun i => py_get pre i) (map fst (filter (fun q => p (snd q)) (combine (zrange j (j + Z.of_nat (length keys'))) keys'))) = Ok v' -> v' = []).
      { clear. induction keys' as [|k keys' IH]; intros j v' Hj H.
        - destruct (zrange j (j + Z.of_nat (length []))); cbn [combine filter map mapM] in H; injection H as <-; reflexivity.
        - rewrite zrange_cons in H by (cbn [length]; lia). cbn [combine filter snd] in H.
          replace (j + Z.of_nat (length (k :: keys'))) with (j + 1 + Z.of_nat (length keys')) in H by (cbn [length]; lia). destruct (p k).
          + cbn [map mapM fst] in H. unfold py_get in H at 1. destruct (Z.ltb_spec j 0); [lia|].
            assert (E : zget pre j = None). { unfold zget. destruct (j <? 0); [reflexivity|]. apply nth_error_None. lia. } rewrite E in H. discriminate.
          + apply (IH (j + 1) v'); [lia|exact H]. }
      replace (map snd (filter (fun q => p (fst q)) (combine (k :: keys) []))) with (@nil A) by reflexivity.
      apply (Hn (k :: keys) (Z.of_nat (length pre)) v); [lia|]. rewrite zrange_cons by (cbn [length]; lia). cbn [combine filter snd]. exact H.
    + cbn [combine filter fst]. replace (Z.of_nat (length pre) + Z.of_nat (length (k :: keys))) with (Z.of_nat (length (pre ++ [x])) + Z.of_nat (length keys)) in H by (rewrite app_length; cbn [length]; lia).
      replace (Z.of_nat (length pre) + 1) with (Z.of_nat (length (pre ++ [x]))) in H by (rewrite app_length; cbn [length]; lia).
      replace (pre ++ x :: u) with ((pre ++ [x]) ++ u) in H by (rewrite <- app_assoc; reflexivity). destruct (p k).
      * cbn [map mapM fst snd] in *. apply bind_ok in H. destruct H as [x' [Ex H]]. apply bind_ok in H. destruct H as [r [Er H]]. injection H as <-.
        rewrite py_get_nat, <- app_assoc, nth_error_app2, Nat.sub_diag in Ex by lia. injection Ex as <-. f_equal. apply (IH u (pre ++ [x]) r Er).
      * apply (IH u (pre ++ [x]) v H).
Qed.
Lemma select_ok (keys : list B) : forall (u pre : list A), length keys = length u ->
  mapM (fun i => py_get (pre ++ u) i)
       (map fst (filter (fun q => p (snd q)) (combine (zrange (Z.of_nat (length pre)) (Z.of_nat (length pre) + Z.of_nat (length keys))) keys)))
  = Ok (map snd (filter (fun q => p (fst q)) (combine keys u))).
Proof.
  induction keys as [|k keys IH]; intros [|x u] pre HL; try discriminate.
  - cbn [length]. rewrite Z.add_0_r. unfold zrange. rewrite Z.sub_diag. reflexivity.
  - rewrite zrange_cons by (cbn [length]; lia). cbn [combine filter snd fst].
    replace (Z.of_nat (length pre) + Z.of_nat (length (k :: keys))) with (Z.of_nat (length (pre ++ [x])) + Z.of_nat (length keys)) by (rewrite app_length; cbn [length]; lia).
    replace (Z.of_nat (length pre) + 1) with (Z.of_nat (length (pre ++ [x]))) by (rewrite app_length; cbn [length]; lia).
    replace (pre ++ x :: u) with ((pre ++ [x]) ++ u) by (rewrite <- app_assoc; reflexivity).
    specialize (IH u (pre ++ [x]) ltac:(cbn [length] in HL; lia)). destruct (p k); [|exact IH].
    cbn [map mapM fst snd]. rewrite py_get_nat, <- app_assoc at 1. rewrite nth_error_app2, Nat.sub_diag by lia. cbn [app nth_error of_option bind]. rewrite IH. reflexivity.
Qed.
End Select.

(** ** Sorted distinct values *)
Lemma nodup_sorted l : StronglySorted Z.le l -> StronglySorted Z.lt (nodup Z.eq_dec l).
Proof.
  induction 1 as [|a l Hl IH Ha]; [constructor|]. cbn [nodup]. destruct (in_dec Z.eq_dec a l) as [|Hn]; [exact IH|]. constructor; [exact IH|].
  rewrite Forall_forall in *. intros x Hx. apply nodup_In in Hx. specialize (Ha x Hx). assert (x <> a) by (intros ->; exact (Hn Hx)). lia.
Qed.
Lemma isort_z l : StronglySorted Z.le (isort Z.leb l).
Proof.
  pose proof (@isort_sorted Z Z.leb) as H. assert (G : StronglySorted (fun a b => (a <=? b) = true) (isort Z.leb l)).
  { apply H; intros; rewrite ?Z.leb_le in *; lia. }
  clear H. induction G as [|a s G IH Ha]; constructor; [exact IH|]. rewrite Forall_forall in *. intros x Hx. apply Z.leb_le, Ha. exact Hx.
Qed.
Lemma unique_in l x : In x (unique l) <-> In x l.
Proof. unfold unique. rewrite nodup_In. split; apply Permutation_in; [|apply Permutation_sym]; apply isort_perm. Qed.
Lemma unique_sorted l : StronglySorted Z.lt (unique l).
Proof. unfold unique. apply nodup_sorted, isort_z. Qed.
Lemma sorted_nodup l : StronglySorted Z.lt l -> NoDup l.
Proof. induction 1 as [|a l Hl IH Ha]; constructor; [|exact IH]. rewrite Forall_forall in Ha. intros Hin. specialize (Ha a Hin). lia. Qed.

(** ** Classes recombine *)
Lemma members_cons {A} c k keys (x : A) u : members c (k :: keys) (x :: u) = if k =? c then x :: members c keys u else members c keys u.
Proof. unfold members. cbn [combine filter fst]. destruct (k =? c); reflexivity. Qed.
Lemma total_of_classes (all : list Z) keys (u : list R) : NoDup all -> (forall k, In k keys -> In k all) -> length keys = length u ->
  Rtotal (map (fun c => Rtotal (members c keys u)) all) = Rtotal u.
Proof.
  intros Hnd. revert u. induction keys as [|k keys IH]; intros [|x u] Hin HL; try discriminate.
  - change (Rtotal []) with 0%R. clear. induction all as [|c all IH]; [reflexivity|]. cbn [map]. rewrite Rtotal_cons, IH. unfold members. cbn [combine filter map]. change (Rtotal []) with 0%R. ring.
  - rewrite Rtotal_cons, <- (IH u (fun k' Hk' => Hin k' (or_intror Hk')) ltac:(cbn [length] in HL; lia)). pose proof (Hin k (or_introl eq_refl)) as Hk. clear - Hnd Hk.
    enough (G : forall all, NoDup all -> (Rtotal (map (fun c => Rtotal (members c (k :: keys) (x :: u))) all)
      = (if in_dec Z.eq_dec k all then x else 0) + Rtotal (map (fun c => Rtotal (members c keys u)) all))%R).
    { rewrite (G all Hnd). destruct (in_dec Z.eq_dec k all); [reflexivity|contradiction]. }
    clear. induction 1 as [|c all Hc Hnd IH]; [cbn [map]; destruct (in_dec Z.eq_dec k []) as [[]|]; change (Rtotal []) with 0%R; ring|].
    cbn [map]. rewrite !Rtotal_cons, IH, members_cons. destruct (Z.eqb_spec k c) as [->|Hne].
    + rewrite Rtotal_cons. destruct (in_dec Z.eq_dec c (c :: all)) as [|Hn]; [|destruct (Hn (or_introl eq_refl))]. destruct (in_dec Z.eq_dec c all); [contradiction|]. ring.
    + destruct (in_dec Z.eq_dec k (c :: all)) as [Hi|Hn], (in_dec Z.eq_dec k all) as [Hi'|Hn']; try ring.
      * destruct Hi as [->|Hi]; [congruence|contradiction].
      * destruct (Hn (or_intror Hi')).
Qed.
Lemma mean_times l : l <> [] -> (INR (length l) * mean l = Rtotal l)%R.
Proof. intros H. unfold mean. field. apply not_0_INR. destruct l; [congruence|discriminate]. Qed.

Section Real.
Variable (rowsum : list RE -> RE) (digest : list (list RE) -> list RE -> list Z -> Z).
Hypothesis rowsum_exact : forall l, rowsum l = Rtotal l.
Variable (st : list (model RE)) (sh : list shape) (ds : list (obj (N:=RE))).
Hypothesis Hr : ready digest st sh ds.

Lemma nmean_real (l : list R) : nf32 (n:=RE) (ndiv (n:=RE) (nsum (N:=RE) l) (nofnat (N:=RE) (length l))) = mean l.
Proof.
  unfold mean. change (fold_left (fun a b : R => a + b) l 0 / IZR (Z.of_nat (length l)) = Rtotal l / INR (length l))%R. rewrite fold_total, <- INR_IZR_INZ. f_equal. ring.
Qed.
Lemma class_mean_real (u : list R) cls c v : class_mean (N:=RE) u cls c = Ok v ->
  v = match members c cls u with [] => None | l => Some (mean l) end.
Proof.
  unfold class_mean, where_class. intros H. apply bind_ok in H. destruct H as [l [El H]]. pose proof (select_from (fun k => k =? c) cls u [] l El) as ->. fold (members c cls u) in *.
  injection H as <-. destruct (members c cls u) as [|x r] eqn:E; [reflexivity|]. f_equal. rewrite <- E. apply nmean_real.
Qed.

Theorem C55_means_lemma ms metrics classes cache st' all data :
  query_class_performance (N:=RE) rowsum digest st ds ms metrics classes cache = Ok (st', (all, data)) ->
  StronglySorted Z.lt all /\ (forall c, In c all <-> exists cls, In cls classes /\ In c cls) /\ length data = length ds /\
  forall a b j o i f, nth_error ds a = Some o -> nth_error ms b = Some i -> nth_error metrics j = Some f ->
    exists v vals, evaluated st sh o i f v /\ at3 data a b j = Some vals /\ length vals = length all /\
      forall k c, nth_error all k = Some c -> exists cls, nth_error classes a = Some cls /\
        nth_error vals k = Some (match members c cls (snd v) with [] => None | l => Some (mean l) end).
Proof.
  unfold query_class_performance. intros E. apply bind_ok in E. destruct E as [[st1 qs] [Eq E]]. cbn [fst snd] in E. cbv zeta in E. apply bind_ok in E. destruct E as [d [Ed E]]. injection E as <- <- <-.
  set (all := unique (concat (map unique classes))) in *. destruct (query_scores_ok rowsum digest rowsum_exact st sh ds Hr ms metrics cache st1 qs Eq) as [L1 [Q1 _]].
  split; [apply unique_sorted|]. split.
  { intros c. unfold all. rewrite unique_in, in_concat. split.
    - intros [l [Hl Hc]]. apply in_map_iff in Hl. destruct Hl as [cls [<- Hcls]]. apply (proj1 (unique_in cls c)) in Hc. exists cls. auto.
    - intros [cls [Hcls Hc]]. exists (unique cls). split; [apply in_map; exact Hcls|apply unique_in; exact Hc]. }
  split; [rewrite (mapM_length _ _ Ed), combine_length, zrange_length; lia|].
  intros a b j o i f Ha Hb Hj. destruct (Q1 a b j o i f Ha Hb Hj) as [v [pd [pm [Hev [Hpd [Hpm Hu]]]]]].
  assert (Hp : nth_error (combine (zrange 0 (Z.of_nat (length qs))) qs) a = Some (Z.of_nat a, pd)).
  { assert (Hz : nth_error (zrange 0 (Z.of_nat (length qs))) a = Some (Z.of_nat a)) by (rewrite zrange_nth; [reflexivity|]; assert (a < length qs)%nat by (apply nth_error_Some; congruence); lia).
    revert Hz Hpd. generalize (zrange 0 (Z.of_nat (length qs))) (Z.of_nat a). clear. revert qs. induction a as [|a IH]; intros [|q qs] [|z zs] za H1 H2; cbn [nth_error combine] in *; try discriminate; [congruence|]. apply IH; assumption. }
  destruct (mapM_nth _ _ _ _ _ Ed Hp) as [d1 [Hd1 E1]]. cbn [fst snd] in E1. destruct (mapM_nth _ _ _ _ _ E1 Hpm) as [d2 [Hd2 E2]]. destruct (mapM_nth _ _ _ _ _ E2 Hu) as [vals [Hvals E3]].
  exists v, vals. split; [exact Hev|]. split; [exact (at3_ok _ _ _ _ _ _ _ Hd1 Hd2 Hvals)|]. split; [apply (mapM_length _ _ E3)|].
  intros k c Hk. destruct (mapM_nth _ _ _ _ _ E3 Hk) as [w [Hw Ew]]. apply bind_ok in Ew. destruct Ew as [cls [Ecls Ew]]. rewrite py_get_nat in Ecls.
  destruct (nth_error classes a) as [cls'|] eqn:Ea; [|discriminate]. injection Ecls as ->. exists cls. split; [reflexivity|]. rewrite Hw. f_equal. apply class_mean_real. exact Ew.
Qed.

Theorem C55_recombine_lemma ms metrics classes cache st' all data a b j o i f cls :
  query_class_performance (N:=RE) rowsum digest st ds ms metrics classes cache = Ok (st', (all, data)) ->
  nth_error ds a = Some o -> nth_error ms b = Some i -> nth_error metrics j = Some f -> nth_error classes a = Some cls ->
  exists v vals, evaluated st sh o i f v /\ at3 data a b j = Some vals /\
    (length cls = length (snd v) ->
     Rtotal (map (fun p => INR (length (members (fst p) cls (snd v))) * value_or_zero (snd p)) (combine all vals)) = Rtotal (snd v))%R.
Proof.
  intros E Ha Hb Hj Hcls. destruct (C55_means_lemma ms metrics classes cache st' all data E) as [Hsort [Hin [_ H]]].
  destruct (H a b j o i f Ha Hb Hj) as [v [vals [Hev [Hat [HL Hk]]]]]. exists v, vals. split; [exact Hev|]. split; [exact Hat|]. intros Hlen.
  rewrite <- (total_of_classes all cls (snd v) (sorted_nodup _ Hsort)) by first [exact Hlen | intros k Hkc; apply Hin; exists cls; split; [exact (nth_error_In _ _ Hcls)|exact Hkc]].
  f_equal. apply nth_error_ext'. intro k. rewrite !nth_error_map'. destruct (nth_error all k) as [c|] eqn:Ec.
  - destruct (Hk k c Ec) as [cls' [Hcls' Hv]]. rewrite Hcls in Hcls'. injection Hcls' as <-.
    assert (Ecomb : nth_error (combine all vals) k = Some (c, match members c cls (snd v) with [] => None | x :: r => Some (mean (x :: r)) end)).
    { revert Ec Hv. generalize (match members c cls (snd v) with [] => None | x :: r => Some (mean (x :: r)) end). clear. revert all vals. induction k as [|k IH]; intros [|x l] [|y l'] z H1 H2; cbn [nth_error combine] in *; try discriminate; [injection H1 as <-; injection H2 as <-; reflexivity|]. apply IH; assumption. }
    refine (eq_trans (f_equal (option_map _) Ecomb) _). cbn [option_map fst snd]. f_equal. destruct (members c cls (snd v)) as [|x r] eqn:Em; [cbn [value_or_zero length INR]; change (Rtotal []) with 0%R; ring|]. cbn [value_or_zero].
    apply (mean_times (x :: r)). discriminate.
  - assert (Ecomb : nth_error (combine all vals) k = None) by (apply nth_error_None; rewrite combine_length; apply nth_error_None in Ec; lia). exact (f_equal (option_map _) Ecomb).
Qed.

(** ** tree_wise_average_contribution *)
Lemma nabs_real (x : R) : nabs (N:=RE) x = Rabs x.
Proof.
  change ((if Rltb x 0 then 0 - x else x)%R = Rabs x). destruct (Rltb x 0) eqn:E.
  - apply Rltb_true in E. rewrite Rabs_left by exact E. ring.
  - apply Rltb_false in E. rewrite Rabs_right by lra. reflexivity.
Qed.
Lemma average_real (col : list R) :
  nf32 (n:=RE) (ndiv (n:=RE) (nsum (N:=RE) (map (nabs (N:=RE)) col)) (nofnat (N:=RE) (length col))) = mean (map Rabs col).
Proof.
  rewrite <- nmean_real, map_length. replace (map (nabs (N:=RE)) col) with (map Rabs col); [reflexivity|]. apply map_ext. intros; symmetry; apply nabs_real.
Qed.
Definition average_of (i : nat) (o : obj (N:=RE)) (mx : Z) (a : answer (N:=RE)) : res (list (option RE)) :=
  do parts <- partial_y_pred a;
  do n <- n_trees_of st i;
  do c <- average_contribution (N:=RE) n parts;
  Ok (c ++ repeat None (Z.to_nat mx - length c)).

Theorem C70_lemma ms cache st' data : Forall (fun i => (i < length st)%nat) ms ->
  tree_wise_average_contribution (N:=RE) rowsum digest st ds ms cache = Ok (st', data) ->
  length data = length ds /\
  forall a b o i, nth_error ds a = Some o -> nth_error ms b = Some i ->
    exists m s cells, nth_error st i = Some m /\ nth_error sh i = Some s /\ at2 data a b = Some cells /\ Z.of_nat (length cells) = largest sh ms /\
      forall t, (t < length cells)%nat ->
        nth_error cells t = Some (if (t <? length (fst s))%nat && negb (length (ds_X (snd o)) =? 0)%nat
                                  then Some (mean (map (fun row => Rabs (value_or_zero (tree_part m s t row))) (ds_X (snd o)))) else None).
Proof.
  intros Hms E. unfold tree_wise_average_contribution in E. rewrite (max_trees_ok digest st sh ds Hr ms Hms) in E. cbn [bind] in E. pose proof (largest_nonneg sh ms) as Hmx. set (mx := largest sh ms) in *.
  pose proof (transparent_cached rowsum digest rowsum_exact st sh ds cache Hr) as T.
  pose proof (per_dataset (N:=RE) rowsum digest st ds cache _ T true (fun i o a => average_of i o mx a)
    (fun st o i => do r <- score_in (N:=RE) rowsum digest st i o true cache;
      do parts <- partial_y_pred (snd r);
      do n <- n_trees_of st i;
      do c <- average_contribution (N:=RE) n parts;
      Ok (fst r, c ++ repeat None (Z.to_nat mx - length c))) ms) as P.
  specialize (P ltac:(intros st1 o i Hst1 _; unfold average_of; destruct T as [_ [_ T3]]; rewrite (T3 st1 i Hst1);
    destruct (score_in rowsum digest st1 i o true cache) as [r|]; cbn [bind]; [|reflexivity];
    destruct (partial_y_pred (snd r)) as [parts|]; cbn [bind]; [|reflexivity]; destruct (n_trees_of st i) as [n|]; cbn [bind]; [|reflexivity];
    destruct (average_contribution n parts) as [c|]; reflexivity) st (proj1 T) ds ltac:(intros x Hx; exact Hx)).
  match type of P with match ?x with _ => _ end => destruct x as [bs|e] eqn:Eb end; [|pose proof (eq_trans (eq_sym E) P); discriminate].
  destruct P as [st2 [P _]]. pose proof (eq_trans (eq_sym E) P) as EP. injection EP as -> ->. split; [apply (mapM_length _ _ Eb)|].
  intros a b o i Ha Hb. destruct (mapM_nth _ _ _ _ _ Eb Ha) as [row [Hrow Erow]]. destruct (mapM_nth _ _ _ _ _ Erow Hb) as [cells [Hcells Ecells]].
  pose proof (nth_error_In _ _ Ha) as Ho. pose proof (nth_error_In _ _ Hb) as Hi. rewrite Forall_forall in Hms. destruct (store_shape digest st sh ds Hr i (Hms i Hi)) as [m [s [Hm Hs]]].
  destruct (alone_real rowsum digest rowsum_exact st sh ds Hr i o m s Ho Hm Hs) as [[_ E1]|[_ [_ [parts [E1 HF]]]]]; rewrite E1 in Ecells; [discriminate|]. cbn [bind] in Ecells.
  unfold average_of in Ecells. cbn [partial_y_pred bind] in Ecells. rewrite (trees_of_store digest st sh ds Hr i m Hm) in Ecells. unfold trees_in in Ecells. rewrite Hs in Ecells. cbn [bind] in Ecells.
  apply bind_ok in Ecells. destruct Ecells as [c [Ec Ecells]]. injection Ecells as <-. pose proof (mapM_length _ _ Ec) as Lc. rewrite zrange_length, Z.sub_0_r, Nat2Z.id in Lc. change (@length (option R) c = length (fst s)) in Lc.
  assert (Hn : Z.of_nat (length (fst s)) <= mx). { pose proof (largest_ge sh ms i Hi) as G. unfold trees_in in G. rewrite Hs in G. exact G. }
  exists m, s. eexists. split; [exact Hm|]. split; [exact Hs|]. split; [exact (at2_ok _ _ _ _ _ Hrow Hcells)|]. split; [rewrite app_length, repeat_length; lia|].
  intros t Ht. destruct (Nat.ltb_spec t (length (fst s))) as [Hlt|Hge]; cbn [andb].
  - rewrite nth_error_app1 by lia. assert (Hz : nth_error (zrange 0 (Z.of_nat (length (fst s)))) t = Some (Z.of_nat t)) by (rewrite zrange_nth by lia; reflexivity).
    destruct (mapM_nth _ _ _ _ _ Ec Hz) as [w [Hw Ew]]. refine (eq_trans Hw _). f_equal. apply bind_ok in Ew. destruct Ew as [col [Ecol Ew]]. injection Ew as <-.
    assert (El : length (snd s) = length (fst s)) by (pose proof Hr as [H1 _]; destruct (Forall2_nth _ _ _ _ _ H1 Hm) as [s' [Hs' [_ [Lay _]]]]; rewrite Hs in Hs'; injection Hs' as <-; destruct Lay as [[_ [_ [_ [El _]]]] _]; exact El).
    assert (Ecol' : col = map (fun row => value_or_zero (tree_part m s t row)) (ds_X (snd o))).
    { clear - HF Ecol Hlt El. revert col Ecol. induction HF as [|x part X parts Hc HF IH]; intros col Ecol; cbn [mapM map] in *; [injection Ecol as <-; reflexivity|].
      apply bind_ok in Ecol. destruct Ecol as [v [Ev Ecol]]. apply bind_ok in Ecol. destruct Ecol as [r [Er Ecol]]. injection Ecol as <-. rewrite (IH r Er). f_equal.
      rewrite py_get_nat in Ev. destruct Hc as [_ [Hc _]]. unfold tree_part.
      destruct (nth_error (fst s) t) as [tr|] eqn:Etr; [|apply nth_error_None in Etr; lia]. destruct (nth_error (snd s) t) as [wt|] eqn:Ewt; [|apply nth_error_None in Ewt; lia].
      pose proof (eq_trans (eq_sym (f_equal (of_option IndexError) (Hc t wt tr Ewt Etr))) Ev) as Ev'. injection Ev' as <-. reflexivity. }
    subst col. destruct (ds_X (snd o)) as [|x X] eqn:EX; [reflexivity|]. rewrite <- EX. replace (length (ds_X (snd o)) =? 0)%nat with false by (rewrite EX; reflexivity). cbn [negb].
    destruct (map (fun row => value_or_zero (tree_part m s t row)) (ds_X (snd o))) as [|y ys] eqn:Em; [rewrite EX in Em; discriminate|]. rewrite <- Em. f_equal.
    refine (eq_trans (average_real _) _). rewrite map_map. reflexivity.
  - rewrite nth_error_app2 by lia. apply nth_error_repeat. rewrite app_length, repeat_length in Ht. lia.
Qed.
End Real.
