(** Proofs about tree_wise_performance (C53) and tree_wise_average_contribution. *)
From Coq Require Import List ZArith Bool Lia Arith Reals Lra.
From Verif Require Import Base Num Lists M_Dataset M_NDCG S_Dataset M_Ensemble S_Ensemble L_Ensemble L_Ensemble2 L_Ensemble3 L_Loaders L_Topology3 L_Feature4 L_Feature5
  M_Effectiveness S_Effectiveness L_Effectiveness L_Effectiveness2.
Import ListNotations.
Local Open Scope Z_scope.

(** ** The steps *)
Lemma py_get_nat {A} (l : list A) k : py_get l (Z.of_nat k) = of_option IndexError (nth_error l k).
Proof. unfold py_get. destruct (Z.ltb_spec (Z.of_nat k) 0); [lia|]. rewrite zget_nat. reflexivity. Qed.
Lemma py_get_last {A} (l : list A) x : py_get (l ++ [x]) (-1) = Ok x.
Proof.
  unfold py_get. replace (-1 <? 0) with true by reflexivity. rewrite app_length. cbn [length].
  replace (-1 + Z.of_nat (length l + 1)) with (Z.of_nat (length l)) by lia. rewrite zget_nat, nth_error_app2, Nat.sub_diag by lia. reflexivity.
Qed.
Definition counts (step n : Z) : list Z := map (fun q => Z.min ((q + 1) * step) n) (zrange 0 ((n + step - 1) / step)).

Lemma tree_steps_ok step n : 1 <= step <= n -> tree_steps step n = Ok (map (fun k => k - 1) (counts step n)).
Proof.
  intros H. unfold tree_steps, py_range. destruct (Z.eqb_spec step 0); [lia|]. destruct (Z.ltb_spec 0 step); [|lia]. cbn [bind].
  replace (n - (step - 1) + step - 1) with n by lia. pose proof (Z.div_mod n step ltac:(lia)) as D. pose proof (Z.mod_pos_bound n step ltac:(lia)) as B.
  set (c := n / step) in *. assert (Hc : 1 <= c) by (unfold c; apply Z.div_le_lower_bound; lia).
  assert (Ez : zrange 0 c = zrange 0 (c - 1) ++ [c - 1]).
  { rewrite <- (L_Loaders.zrange_app 0 (c - 1) c) by lia. f_equal. rewrite (zrange_cons (c - 1) c) by lia. replace (c - 1 + 1) with c by lia.
    unfold zrange. replace (Z.to_nat (c - c)) with 0%nat by lia. reflexivity. }
  rewrite Ez at 1. rewrite map_app at 1. cbn [map]. rewrite py_get_last. cbn [bind].
  assert (Em : forall hi, hi <= c -> map (fun q => step - 1 + q * step) (zrange 0 hi) = map (fun k => k - 1) (map (fun q => Z.min ((q + 1) * step) n) (zrange 0 hi))).
  { intros hi Hhi. rewrite map_map. apply map_ext_in. intros q Hq. apply in_zrange in Hq. assert ((q + 1) * step <= c * step) by (apply Z.mul_le_mono_nonneg_r; lia).
    rewrite Z.min_l by lia. lia. }
  unfold counts. destruct (Z.eqb_spec (step - 1 + (c - 1) * step) (n - 1)) as [E|E].
  - assert (En : n mod step = 0) by lia. replace ((n + step - 1) / step) with c.
    + rewrite (Em c) by lia. reflexivity.
    + apply Z.div_unique with (r := step - 1); [lia|]. rewrite D at 1. rewrite En. lia.
  - assert (En : n mod step <> 0) by lia. replace ((n + step - 1) / step) with (c + 1).
    + rewrite <- (L_Loaders.zrange_app 0 c (c + 1)), !map_app by lia. rewrite (Em c) by lia. f_equal. f_equal.
      rewrite (zrange_cons c (c + 1)) by lia. unfold zrange. replace (Z.to_nat (c + 1 - (c + 1))) with 0%nat by lia. cbn [seq map]. f_equal. rewrite Z.min_r by lia. reflexivity.
    + apply Z.div_unique with (r := n mod step - 1); lia.
Qed.
Lemma tree_steps_err step n : 1 <= step -> n < step -> tree_steps step n = Err IndexError.
Proof.
  intros H Hn. unfold tree_steps, py_range. destruct (Z.eqb_spec step 0); [lia|]. destruct (Z.ltb_spec 0 step); [|lia]. cbn [bind].
  assert (E : zrange 0 ((n - (step - 1) + step - 1) / step) = []).
  { replace (n - (step - 1) + step - 1) with n by lia. assert (n / step <= 0) by (apply Z.lt_succ_r; apply Z.div_lt_upper_bound; lia).
    unfold zrange. replace (Z.to_nat (n / step - 0)) with 0%nat by lia. reflexivity. }
  rewrite E. reflexivity.
Qed.
Lemma counts_length step n : 1 <= step <= n -> Z.of_nat (length (counts step n)) = (n + step - 1) / step.
Proof. intros H. unfold counts. rewrite map_length, zrange_length, Z.sub_0_r, Z2Nat.id; [reflexivity|]. apply Z.div_pos; lia. Qed.
Lemma counts_nth step n q : 1 <= step <= n -> (q < length (counts step n))%nat -> nth_error (counts step n) q = Some (Z.min ((Z.of_nat q + 1) * step) n).
Proof.
  intros H Hq. unfold counts in *. rewrite map_length, zrange_length in Hq. rewrite nth_error_map', (zrange_nth _ _ _ Hq). cbn [option_map]. reflexivity.
Qed.
Lemma counts_le step n n' : 1 <= step <= n -> n <= n' -> (length (counts step n) <= length (counts step n'))%nat.
Proof.
  intros H Hn. assert (Z.of_nat (length (counts step n)) <= Z.of_nat (length (counts step n'))); [|lia].
  rewrite !counts_length by lia. apply Z.div_le_mono; lia.
Qed.
Lemma counts_reach step n q : 1 <= step <= n -> ((q < length (counts step n))%nat <-> Z.of_nat q * step < n).
Proof.
  intros H. assert (E : (q < length (counts step n))%nat <-> Z.of_nat q < (n + step - 1) / step) by (rewrite <- counts_length by lia; lia). rewrite E.
  split; intros G.
  - assert (Z.of_nat q + 1 <= (n + step - 1) / step) by lia. assert (((n + step - 1) / step) * step <= n + step - 1) by (rewrite Z.mul_comm; apply Z.mul_div_le; lia).
    assert ((Z.of_nat q + 1) * step <= (n + step - 1) / step * step) by (apply Z.mul_le_mono_nonneg_r; lia). lia.
  - assert (Z.of_nat q + 1 <= (n + step - 1) / step); [|lia]. apply Z.div_le_lower_bound; lia.
Qed.

(** ** States of a loop *)
Lemma mapST_states {S A B} (f : S -> A -> res (S * B)) (s : nat -> S) (b : nat -> res B) l :
  (forall k a, nth_error l k = Some a -> f (s k) a = (do v <- b k; Ok (s (Datatypes.S k), v))) ->
  mapST f (s 0%nat) l = (do bs <- mapM b (seq 0 (length l)); Ok (s (length l), bs)).
Proof.
  intros H. enough (G : forall l' k, (forall j a, nth_error l' j = Some a -> nth_error l (k + j) = Some a) ->
    mapST f (s k) l' = (do bs <- mapM b (seq k (length l')); Ok (s (k + length l')%nat, bs))) by (apply (G l 0%nat); intros j a Hj; exact Hj).
  induction l' as [|a l' IH]; intros k Hl; cbn [mapST mapM seq length bind].
  - rewrite Nat.add_0_r. reflexivity.
  - rewrite (H k a) by (rewrite <- (Hl 0%nat a eq_refl); f_equal; lia). destruct (b k) as [v|e]; cbn [bind]; [|reflexivity]. cbn [fst snd].
    rewrite (IH (Datatypes.S k)) by (intros j a' Hj; rewrite <- (Hl (Datatypes.S j) a' Hj); f_equal; lia).
    destruct (mapM b (seq (Datatypes.S k) (length l'))) as [bs|e]; cbn [bind]; [|reflexivity]. cbn [fst snd]. do 3 f_equal. lia.
Qed.

Section Real.
Variable (rowsum : list RE -> RE) (digest : list (list RE) -> list RE -> list Z -> Z).
Hypothesis rowsum_exact : forall l, rowsum l = Rtotal l.

Lemma total_grow (row : list R) a b : 0 <= a <= b -> b <= Z.of_nat (length row) ->
  (Rtotal (firstn (Z.to_nat a) row) + rowsum (slice a b row) = Rtotal (firstn (Z.to_nat b) row))%R.
Proof.
  intros H1 H2. rewrite rowsum_exact, (slice_nonneg _ H1 H2), <- Rtotal_app. f_equal.
  rewrite <- (firstn_skipn (Z.to_nat a) (firstn (Z.to_nat b) row)). f_equal.
  - rewrite firstn_firstn. f_equal. lia.
  - rewrite skipn_firstn_comm. reflexivity.
Qed.

Lemma steps_of_model_ok (d : dataset RE) (parts : list (list R)) metrics step n :
  1 <= step <= n -> length parts = n_instances d -> Forall (fun r => Z.of_nat (length r) = n) parts ->
  steps_of_model (N:=RE) rowsum d parts metrics step (map (fun k => k - 1) (counts step n))
  = mapM (fun q => metric_row (N:=RE) metrics d (map (fun r => Rtotal (firstn (Z.to_nat (Z.min ((Z.of_nat q + 1) * step) n)) r)) parts)) (seq 0 (length (counts step n))).
Proof.
  intros Hs Hp Hf. unfold steps_of_model. rewrite map_length.
  set (y := fun q : nat => map (fun r => Rtotal (firstn (Z.to_nat (Z.min (Z.of_nat q * step) n)) r)) parts).
  assert (E0 : repeat (nzero (n:=RE)) (n_instances d) = y 0%nat).
  { unfold y. rewrite <- Hp. clear. induction parts as [|r ps IH]; [reflexivity|]. cbn [length repeat map]. rewrite IH. f_equal.
    rewrite Z.mul_0_l. destruct (Z.le_gt_cases 0 n) as [H|H]; [rewrite Z.min_l by lia; reflexivity|rewrite Z.min_r by lia; destruct n; [lia|lia|reflexivity]]. }
  rewrite E0. set (L := combine (zrange 0 (Z.of_nat (length (counts step n)))) (map (fun k => k - 1) (counts step n))).
  assert (HL : length L = length (counts step n)) by (unfold L; rewrite combine_length, zrange_length, map_length; lia).
  rewrite (mapST_states _ y (fun q => metric_row (N:=RE) metrics d (y (S q))) L).
  - rewrite HL. replace (mapM (fun q => metric_row metrics d (map (fun r => Rtotal (firstn (Z.to_nat (Z.min ((Z.of_nat q + 1) * step) n)) r)) parts)) (seq 0 (length (counts step n))))
      with (mapM (fun q => metric_row (N:=RE) metrics d (y (S q))) (seq 0 (length (counts step n)))).
    + destruct (mapM (fun q => metric_row (N:=RE) metrics d (y (S q))) (seq 0 (length (counts step n)))); reflexivity.
    + apply mapM_ext. intros q _. unfold y. replace (Z.of_nat (S q)) with (Z.of_nat q + 1) by lia. reflexivity.
  - intros q p Hq. assert (Hlen : (q < length (counts step n))%nat) by (rewrite <- HL; apply nth_error_Some; congruence).
    assert (Ep : p = (Z.of_nat q, Z.min ((Z.of_nat q + 1) * step) n - 1)).
    { unfold L in Hq. assert (E : nth_error (zrange 0 (Z.of_nat (length (counts step n)))) q = Some (Z.of_nat q)) by (rewrite zrange_nth by lia; reflexivity).
      assert (E2 : nth_error (map (fun k => k - 1) (counts step n)) q = Some (Z.min ((Z.of_nat q + 1) * step) n - 1)) by (rewrite nth_error_map', (counts_nth step n q Hs Hlen); reflexivity).
      clear - Hq E E2. revert E E2 Hq. generalize (map (fun k => k - 1) (counts step n)) (zrange 0 (Z.of_nat (length (counts step n)))).
      intros l2 l1. generalize (Z.of_nat q) (Z.min ((Z.of_nat q + 1) * step) n - 1). intros a b. revert l1 l2. induction q as [|q IH]; intros [|x l1] [|z l2]; cbn [nth_error combine]; try discriminate.
      - intros H1 H2 H3. congruence.
      - apply IH. }
    subst p. cbn [fst snd].
    assert (EA : add_trees (N:=RE) rowsum (y q) parts (Z.of_nat q * step) (Z.min ((Z.of_nat q + 1) * step) n - 1 + 1) = Ok (y (S q))).
    { unfold add_trees, y. rewrite map_length, Nat.eqb_refl. f_equal.
      assert (Hreach : Z.of_nat q * step < n) by (apply (counts_reach step n q Hs); exact Hlen). clear - Hf Hs Hreach rowsum_exact.
      induction Hf as [|r ps Hr Hps IH]; [reflexivity|]. cbn [map combine fst snd]. rewrite IH. f_equal.
      replace (Z.min ((Z.of_nat q + 1) * step) n - 1 + 1) with (Z.min (Z.of_nat (S q) * step) n) by lia.
      rewrite (Z.min_l (Z.of_nat q * step) n) by lia. apply total_grow; [|lia]. split; [lia|]. apply Z.min_glb; lia. }
    rewrite EA. cbn [bind]. unfold metric_row. destruct (mapM (fun f : evaluator (N:=RE) => do v <- f d (y (S q)); Ok (nf32 (fst v))) metrics); reflexivity.
Qed.

(** ** The first trees *)
Lemma first_terms lr (ws : list R) (ts : list (tree Z R)) row part k : length part = length ts -> length ws = length ts ->
  (forall j w t, nth_error ws j = Some w -> nth_error ts j = Some t -> nth_error part j = Some (lr * (w * snd (exit_leaf (N:=RE) row t)))%R) ->
  Rtotal (firstn k part) = (lr * real_score (firstn k ws) (firstn k ts) row)%R.
Proof.
  revert ws ts k. induction part as [|p part IH]; intros [|w ws] [|t ts] k H1 H2 H; cbn [length] in *; try lia.
  - rewrite !firstn_nil. unfold real_score. cbn [combine map]. change (Rtotal []) with 0%R. ring.
  - destruct k as [|k]; [unfold real_score; cbn [firstn combine map]; change (Rtotal []) with 0%R; ring|]. cbn [firstn].
    specialize (IH ws ts k ltac:(lia) ltac:(lia) (fun j w' t' Hw Ht => H (S j) w' t' Hw Ht)).
    pose proof (H 0%nat w t eq_refl eq_refl) as Hp. cbn [nth_error] in Hp. injection Hp as ->.
    rewrite Rtotal_cons, IH. symmetry. apply Rmult_plus_distr_l.
Qed.
Lemma first_trees lr b ws ts row part k : contribution lr b ws ts row part -> length ws = length ts -> ts <> [] -> (1 <= k)%nat ->
  Rtotal (firstn k part) = (lr * real_score (firstn k ws) (firstn k ts) row + base_of b)%R.
Proof.
  intros [H1 [H2 _]] Hl Hne Hk. destruct k as [|k]; [lia|]. destruct ts as [|t ts]; [congruence|]. destruct ws as [|w ws]; [discriminate Hl|].
  destruct part as [|p part]; [discriminate H1|]. cbn [length] in *. pose proof (H2 0%nat w t eq_refl eq_refl) as Hp. cbn [nth_error] in Hp. injection Hp as ->.
  cbn [firstn]. rewrite Rtotal_cons, (first_terms lr ws ts row part k) by first [lia | intros j w' t' Hw Ht; etransitivity; [exact (H2 (S j) w' t' Hw Ht)|f_equal; apply Rplus_0_r]].
  transitivity (lr * (w * @snd Z R (exit_leaf (N:=RE) row t) + real_score (firstn k ws) (firstn k ts) row) + base_of b)%R; [|reflexivity].
  generalize (@snd Z R (exit_leaf (N:=RE) row t)). intros x. generalize (real_score (firstn k ws) (firstn k ts) row). intros z. ring.
Qed.
Lemma parts_first m (s : shape) (d : dataset RE) parts k : known m s -> (1 <= k)%nat ->
  Forall2 (contribution (m_lr m) (m_base m) (snd s) (fst s)) (ds_X d) parts ->
  map (fun r => Rtotal (firstn k r)) parts = scores_first k m s d.
Proof.
  intros [_ [Lay [Ne _]]] Hk H. destruct Lay as [[_ [_ [_ [El _]]]] _]. unfold scores_first. induction H as [|row part X parts Hc H IH]; [reflexivity|].
  cbn [map]. rewrite IH. f_equal. apply (first_trees _ _ _ _ _ _ _ Hc El Ne Hk).
Qed.

(** ** tree_wise_performance *)
Variable (st : list (model RE)) (sh : list shape) (ds : list (obj (N:=RE))).
Hypothesis Hr : ready digest st sh ds.

Lemma trees_of_store i m : nth_error st i = Some m -> n_trees_of st i = Ok (trees_in sh i).
Proof.
  intros Hm. unfold n_trees_of, trees_in. rewrite Hm. cbn [of_option bind]. destruct Hr as [H1 _]. destruct (Forall2_nth _ _ _ _ _ H1 Hm) as [s [-> [_ [Lay _]]]].
  destruct Lay as [[-> _] _]. reflexivity.
Qed.
Lemma max_trees_ok ms : Forall (fun i => (i < length st)%nat) ms -> max_num_trees st ms = Ok (largest sh ms).
Proof.
  intros H. unfold max_num_trees, largest.
  enough (G : forall a, 0 <= a -> foldM (fun a i => do n <- n_trees_of st i; Ok (if a <? n then n else a)) ms a = Ok (Z.max a (fold_right Z.max 0 (map (trees_in sh) ms)))).
  { rewrite (G 0) by lia. f_equal. apply Z.max_r. clear. induction ms as [|i ms IH]; cbn [map fold_right]; lia. }
  induction H as [|i ms Hi H IH]; intros a Ha; cbn [foldM map fold_right]; [f_equal; lia|].
  destruct (nth_error st i) as [m|] eqn:Hm; [|apply nth_error_None in Hm; lia]. rewrite (trees_of_store i m Hm). cbn [bind].
  destruct (Z.ltb_spec a (trees_in sh i)); rewrite IH by lia; f_equal; lia.
Qed.
Lemma largest_ge ms i : In i ms -> trees_in sh i <= largest sh ms.
Proof. unfold largest. induction ms as [|j ms IH]; [intros []|]. intros [->|H]; cbn [map fold_right]; [lia|]. specialize (IH H). lia. Qed.

Definition tree_wise_of (metrics : list (evaluator (N:=RE))) (step : Z) (steps : list Z) (i : nat) (o : obj (N:=RE)) (a : answer (N:=RE)) : res (list (option (list RE))) :=
  do parts <- partial_y_pred a;
  do n <- n_trees_of st i;
  do own <- tree_steps step n;
  do rows <- steps_of_model rowsum (snd o) parts metrics step own;
  if (length steps <? length rows)%nat then Err IndexError
  else Ok (map Some rows ++ repeat None (length steps - length rows)).

Lemma tree_wise_agrees ms metrics step cache (steps : list Z) :
  let r := mapST (fun st o => mapST (fun st i =>
      do r <- score_in (N:=RE) rowsum digest st i o true cache;
      do parts <- partial_y_pred (snd r);
      do n <- n_trees_of st i;
      do own <- tree_steps step n;
      do rows <- steps_of_model (N:=RE) rowsum (snd o) parts metrics step own;
      if (length steps <? length rows)%nat then Err IndexError
      else Ok (fst r, map Some rows ++ repeat None (length steps - length rows))) st ms) st ds in
  match mapM (fun o => mapM (fun i => do a <- alone (N:=RE) rowsum digest st i o true; tree_wise_of metrics step steps i o a) ms) ds with
  | Ok bs => exists st', r = Ok (st', bs) /\ after rowsum digest st ds st'
  | Err e => r = Err e
  end.
Proof.
  cbv zeta. pose proof (transparent_cached rowsum digest rowsum_exact st sh ds cache Hr) as T.
  apply (per_dataset (N:=RE) rowsum digest st ds cache _ T true (tree_wise_of metrics step steps)
           (fun st o i => do r <- score_in (N:=RE) rowsum digest st i o true cache;
              do parts <- partial_y_pred (snd r);
              do n <- n_trees_of st i;
              do own <- tree_steps step n;
              do rows <- steps_of_model (N:=RE) rowsum (snd o) parts metrics step own;
              if (length steps <? length rows)%nat then Err IndexError
              else Ok (fst r, map Some rows ++ repeat None (length steps - length rows))) ms).
  - intros st1 o i Hst1 _. unfold tree_wise_of. destruct T as [_ [_ T3]]. rewrite (T3 st1 i Hst1).
    destruct (score_in rowsum digest st1 i o true cache) as [r|]; cbn [bind]; [|reflexivity].
    destruct (partial_y_pred (snd r)) as [parts|]; cbn [bind]; [|reflexivity]. destruct (n_trees_of st i) as [n|]; cbn [bind]; [|reflexivity].
    destruct (tree_steps step n) as [own|]; cbn [bind]; [|reflexivity]. destruct (steps_of_model rowsum (snd o) parts metrics step own) as [rows|]; cbn [bind]; [|reflexivity].
    destruct (length steps <? length rows)%nat; reflexivity.
  - destruct T as [H _]. exact H.
  - intros x Hx. exact Hx.
Qed.

Lemma largest_nonneg ms : 0 <= largest sh ms.
Proof. unfold largest. induction ms as [|i ms IH]; cbn [map fold_right]; lia. Qed.

Lemma tree_wise_cell metrics step i o m s mx : In o ds -> nth_error st i = Some m -> nth_error sh i = Some s ->
  1 <= step <= mx -> Z.of_nat (length (fst s)) <= mx ->
  let n := Z.of_nat (length (fst s)) in
  (do a <- alone (N:=RE) rowsum digest st i o true; tree_wise_of metrics step (map (fun k => k - 1) (counts step mx)) i o a)
  = match check_features (m_ens m) (snd o) with
    | Err e => Err e
    | Ok _ => if n <? step then Err IndexError
              else do rows <- mapM (fun q => metric_row (N:=RE) metrics (snd o) (scores_first (Z.to_nat (Z.min ((Z.of_nat q + 1) * step) n)) m s (snd o)))
                                   (seq 0 (length (counts step n)));
                   Ok (map Some rows ++ repeat None (length (counts step mx) - length (counts step n)))
    end.
Proof.
  intros Ho Hm Hs Hmx Hn n. pose proof Hr as [H1 [H2 _]]. destruct (Forall2_nth _ _ _ _ _ H1 Hm) as [s' [Hs' Hk]]. rewrite Hs in Hs'. injection Hs' as <-.
  pose proof Hk as [_ [Lay [Ne _]]].
  destruct (L_Ensemble2.C37_check_lemma _ _ _ (snd o) Lay Ne) as [[E W]|[E W]]; rewrite E.
  - destruct (alone_real rowsum digest rowsum_exact st sh ds Hr i o m s Ho Hm Hs) as [[_ E1]|[W1 _]]; [rewrite E1; reflexivity|destruct (W1 W)].
  - destruct (alone_real rowsum digest rowsum_exact st sh ds Hr i o m s Ho Hm Hs) as [[W1 _]|[_ [_ [parts [E1 HF]]]]]; [destruct (W W1)|]. rewrite E1. cbn [bind].
    unfold tree_wise_of. cbn [partial_y_pred bind]. rewrite (trees_of_store i m Hm). unfold trees_in. rewrite Hs. fold n. cbn [bind].
    destruct (Z.ltb_spec n step) as [Hlt|Hge]; [rewrite tree_steps_err by lia; reflexivity|]. rewrite tree_steps_ok by lia. cbn [bind].
    rewrite Forall_forall in H2. destruct (H2 o Ho) as [_ HL]. assert (Hp : length parts = n_instances (snd o)) by (unfold n_instances; rewrite HL; clear - HF; induction HF; cbn [length]; congruence).
    assert (Hf : Forall (fun r => Z.of_nat (length r) = n) parts).
    { clear - HF. induction HF as [|row part X parts [Hc _] HF IH]; [constructor|]. constructor; [unfold n; f_equal; exact Hc|exact IH]. }
    rewrite (steps_of_model_ok (snd o) parts metrics step n ltac:(lia) Hp Hf).
    match goal with |- bind ?x _ = bind ?y _ => assert (Exy : x = y) end.
    { apply mapM_ext. intros q Hq. f_equal. apply (parts_first m s (snd o) parts _ Hk); [|exact HF]. assert (1 <= (Z.of_nat q + 1) * step) by lia. lia. }
    rewrite Exy. clear Exy. match goal with |- bind ?x _ = _ => destruct x as [rows|] eqn:Er end; cbn [bind]; [|reflexivity].
    apply mapM_length in Er. rewrite seq_length in Er. rewrite map_length, Er.
    destruct (Nat.ltb_spec (length (counts step mx)) (length (counts step n))) as [Hbad|_]; [|reflexivity].
    pose proof (counts_le step n mx ltac:(lia) ltac:(lia)). lia.
Qed.

Theorem C53_values_lemma ms metrics step cache st' ks data : Forall (fun i => (i < length st)%nat) ms -> 1 <= step ->
  tree_wise_performance (N:=RE) rowsum digest st ds ms metrics step cache = Ok (st', (ks, data)) ->
  (** the coordinates *)
  Z.of_nat (length ks) = (largest sh ms + step - 1) / step /\
  (forall q k, nth_error ks q = Some k -> k = Z.min ((Z.of_nat q + 1) * step) (largest sh ms)) /\
  (** the values *)
  length data = length ds /\
  forall a b o i, nth_error ds a = Some o -> nth_error ms b = Some i ->
    exists m s cells, nth_error st i = Some m /\ nth_error sh i = Some s /\ at2 data a b = Some cells /\ length cells = length ks /\
      forall q k, nth_error ks q = Some k ->
        (Z.of_nat q * step < Z.of_nat (length (fst s)) ->
           exists row, nth_error cells q = Some (Some row) /\ length row = length metrics /\
             forall c f, nth_error metrics c = Some f ->
               exists v, f (snd o) (scores_first (Nat.min (Z.to_nat k) (length (fst s))) m s (snd o)) = Ok v /\ nth_error row c = Some (fst v)) /\
        (Z.of_nat (length (fst s)) <= Z.of_nat q * step -> nth_error cells q = Some None).
Proof.
  intros Hms Hstep E. unfold tree_wise_performance in E. rewrite (max_trees_ok ms Hms) in E. cbn [bind] in E. pose proof (largest_nonneg ms) as Hge.
  set (mx := largest sh ms) in *. destruct (Z.le_gt_cases step mx) as [Hle|Hgt]; [|rewrite tree_steps_err in E by lia; discriminate].
  rewrite tree_steps_ok in E by lia. cbn [bind] in E. pose proof (tree_wise_agrees ms metrics step cache (map (fun k => k - 1) (counts step mx))) as H. cbv zeta in H.
  destruct (mapM (fun o => mapM (fun i => do a <- alone (N:=RE) rowsum digest st i o true; tree_wise_of metrics step (map (fun k => k - 1) (counts step mx)) i o a) ms) ds) as [bs|e] eqn:Eb;
    [|rewrite H in E; discriminate]. destruct H as [st2 [H _]]. rewrite H in E. cbn [bind fst snd] in E. injection E as <- <- <-.
  assert (Ek : map (fun k => k + 1) (map (fun k => k - 1) (counts step mx)) = counts step mx).
  { rewrite map_map. rewrite <- (map_id (counts step mx)) at 2. apply map_ext. intros; lia. }
  rewrite Ek. split; [apply counts_length; lia|]. split.
  { intros q k Hq. rewrite counts_nth in Hq; [congruence|lia|]. apply nth_error_Some. congruence. }
  split; [apply (mapM_length _ _ Eb)|]. intros a b o i Ha Hb. pose proof (nth_error_In _ _ Ha) as Ho. pose proof (nth_error_In _ _ Hb) as Hi.
  rewrite Forall_forall in Hms. destruct (store_shape digest st sh ds Hr i (Hms i Hi)) as [m [s [Hm Hs]]].
  destruct (mapM_nth _ _ _ _ _ Eb Ha) as [row [Hrow Erow]]. destruct (mapM_nth _ _ _ _ _ Erow Hb) as [cells [Hcells Ecells]].
  assert (Hn : Z.of_nat (length (fst s)) <= mx). { pose proof (largest_ge ms i Hi) as G. unfold trees_in in G. rewrite Hs in G. exact G. }
  rewrite (tree_wise_cell metrics step i o m s mx Ho Hm Hs ltac:(lia) Hn) in Ecells. destruct (check_features (m_ens m) (snd o)); [|discriminate].
  set (n := Z.of_nat (length (fst s))) in *. destruct (Z.ltb_spec n step) as [Hlt|Hle']; [discriminate|]. apply bind_ok in Ecells. destruct Ecells as [rows [Er Ec]]. injection Ec as <-.
  pose proof (mapM_length _ _ Er) as Lr. rewrite seq_length in Lr. pose proof (counts_le step n mx ltac:(lia) Hn) as Lc.
  exists m, s, (map Some rows ++ repeat None (length (counts step mx) - length (counts step n))). split; [exact Hm|]. split; [exact Hs|].
  split; [exact (at2_ok _ _ _ _ _ Hrow Hcells)|]. split; [rewrite app_length, map_length, repeat_length; lia|].
  intros q k Hq. assert (Hqm : (q < length (counts step mx))%nat) by (apply nth_error_Some; congruence). rewrite (counts_nth step mx q ltac:(lia) Hqm) in Hq. injection Hq as <-. split.
  - intros Hreach. assert (Hq' : (q < length (counts step n))%nat) by (apply counts_reach; [lia|exact Hreach]).
    assert (Hsq : nth_error (seq 0 (length (counts step n))) q = Some q) by (rewrite nth_error_seq; destruct (Nat.ltb_spec q (length (counts step n))); [reflexivity|lia]).
    destruct (mapM_nth _ _ _ _ _ Er Hsq) as [cell [Hcell Ecell]]. exists cell. split; [rewrite nth_error_app1 by (rewrite map_length; lia); rewrite nth_error_map', Hcell; reflexivity|].
    split; [apply (mapM_length _ _ Ecell)|]. intros c f Hf. destruct (mapM_nth _ _ _ _ _ Ecell Hf) as [w [Hw Ew]]. apply bind_ok in Ew. destruct Ew as [v [Ev Ew]]. injection Ew as <-.
    exists v. split; [|exact Hw]. rewrite <- Ev. f_equal. f_equal. unfold n. lia.
  - intros Hbeyond. assert (Hq' : (length (counts step n) <= q)%nat) by (apply Nat.nlt_ge; intros G; apply counts_reach in G; lia).
    rewrite nth_error_app2 by (rewrite map_length; lia). rewrite map_length. apply nth_error_repeat. lia.
Qed.

Theorem C53_raises_lemma ms metrics step cache : Forall (fun i => (i < length st)%nat) ms -> 1 <= step -> largest sh ms < step ->
  tree_wise_performance (N:=RE) rowsum digest st ds ms metrics step cache = Err IndexError.
Proof.
  intros Hms Hs Hl. unfold tree_wise_performance. rewrite (max_trees_ok ms Hms). cbn [bind]. rewrite tree_steps_err by lia. reflexivity.
Qed.

(** A smaller model is enough to make it fail. *)
Theorem C53_small_lemma ms metrics step cache i : Forall (fun i => (i < length st)%nat) ms -> 1 <= step -> In i ms -> trees_in sh i < step -> ds <> [] ->
  exists e, tree_wise_performance (N:=RE) rowsum digest st ds ms metrics step cache = Err e.
Proof.
  intros Hms Hs Hi Ht Hd. destruct (tree_wise_performance (N:=RE) rowsum digest st ds ms metrics step cache) as [[st' [ks data]]|e] eqn:E; [exfalso|exists e; reflexivity].
  pose proof (C53_values_lemma ms metrics step cache st' ks data Hms Hs E) as [Hlen [_ [_ H]]].
  unfold tree_wise_performance in E. rewrite (max_trees_ok ms Hms) in E. cbn [bind] in E. set (mx := largest sh ms) in *.
  destruct (Z.le_gt_cases step mx) as [Hle|Hgt]; [|rewrite tree_steps_err in E by lia; discriminate].
  rewrite tree_steps_ok in E by lia. cbn [bind] in E. pose proof (tree_wise_agrees ms metrics step cache (map (fun k => k - 1) (counts step mx))) as H0. cbv zeta in H0.
  destruct (mapM (fun o => mapM (fun i => do a <- alone (N:=RE) rowsum digest st i o true; tree_wise_of metrics step (map (fun k => k - 1) (counts step mx)) i o a) ms) ds) as [bs|e] eqn:Eb;
    [|rewrite H0 in E; discriminate]. destruct ds as [|o r] eqn:Eds; [congruence|]. rewrite <- Eds in *.
  assert (Ha : nth_error ds 0 = Some o) by (rewrite Eds; reflexivity). destruct (In_nth_error _ _ Hi) as [b Hb].
  rewrite Forall_forall in Hms. destruct (store_shape digest st sh ds Hr i (Hms i Hi)) as [m [s [Hm Hsh]]]. unfold trees_in in Ht. rewrite Hsh in Ht.
  destruct (mapM_nth _ _ _ _ _ Eb Ha) as [row [Hrow Erow]]. destruct (mapM_nth _ _ _ _ _ Erow Hb) as [cells [Hcells Ecells]].
  rewrite (tree_wise_cell metrics step i o m s mx (nth_error_In _ _ Ha) Hm Hsh ltac:(lia) ltac:(lia)) in Ecells. destruct (check_features (m_ens m) (snd o)); [|discriminate].
  destruct (Z.ltb_spec (Z.of_nat (length (fst s))) step); [discriminate|lia].
Qed.

(** When no model is smaller than the step, it fails only because scoring or a metric fails. *)
Theorem C53_total_lemma ms metrics step cache : Forall (fun i => (i < length st)%nat) ms -> ms <> [] -> 1 <= step ->
  (forall i, In i ms -> step <= trees_in sh i) ->
  (forall i s o, In i ms -> nth_error sh i = Some s -> In o ds -> ~ too_wide (ds_nf (snd o)) (fst s)) ->
  (forall f d y, In f metrics -> exists v, f d y = Ok v) ->
  exists r, tree_wise_performance (N:=RE) rowsum digest st ds ms metrics step cache = Ok r.
Proof.
  intros Hms Hne Hs Ht Hw Hf. unfold tree_wise_performance. rewrite (max_trees_ok ms Hms). cbn [bind]. set (mx := largest sh ms) in *.
  assert (Hle : step <= mx). { destruct ms as [|i ms]; [congruence|]. pose proof (Ht i (or_introl eq_refl)). pose proof (largest_ge (i :: ms) i (or_introl eq_refl)). fold mx in H0. lia. }
  rewrite tree_steps_ok by lia. cbn [bind]. pose proof (tree_wise_agrees ms metrics step cache (map (fun k => k - 1) (counts step mx))) as H. cbv zeta in H.
  destruct (mapM (fun o => mapM (fun i => do a <- alone (N:=RE) rowsum digest st i o true; tree_wise_of metrics step (map (fun k => k - 1) (counts step mx)) i o a) ms) ds) as [bs|e] eqn:Eb.
  - destruct H as [st' [-> _]]. cbn [bind]. eexists. reflexivity.
  - exfalso. destruct (mapM_err _ _ _ Eb) as [o [Ho Eo]]. destruct (mapM_err _ _ _ Eo) as [i [Hi Ei]]. rewrite Forall_forall in Hms.
    destruct (store_shape digest st sh ds Hr i (Hms i Hi)) as [m [s [Hm Hsh]]]. pose proof (Ht i Hi) as Ht'. pose proof (largest_ge ms i Hi) as Hg. fold mx in Hg. unfold trees_in in Ht', Hg. rewrite Hsh in Ht', Hg.
    rewrite (tree_wise_cell metrics step i o m s mx Ho Hm Hsh ltac:(lia) ltac:(lia)) in Ei. destruct Hr as [H1 _]. destruct (Forall2_nth _ _ _ _ _ H1 Hm) as [s' [Hs' [_ [Lay [Ne _]]]]].
    rewrite Hsh in Hs'. injection Hs' as <-. destruct (L_Ensemble2.C37_check_lemma _ _ _ (snd o) Lay Ne) as [[_ W]|[E1 _]]; [exact (Hw i s o Hi Hsh Ho W)|]. rewrite E1 in Ei.
    destruct (Z.ltb_spec (Z.of_nat (length (fst s))) step); [lia|].
    match type of Ei with bind ?x _ = _ => destruct x as [rows|e'] eqn:Er; cbn [bind] in Ei; [discriminate|] end.
    destruct (mapM_err _ _ _ Er) as [q [_ Eq]]. destruct (mapM_err _ _ _ Eq) as [f [Hfi Ef]]. destruct (Hf f (snd o) (scores_first (Z.to_nat (Z.min ((Z.of_nat q + 1) * step) (Z.of_nat (length (fst s))))) m s (snd o)) Hfi) as [v Ev].
    rewrite Ev in Ef. discriminate.
Qed.
End Real.
