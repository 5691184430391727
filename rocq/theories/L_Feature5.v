(** Proofs about feature importance: whole models. *)
From Coq Require Import List ZArith Bool Lia Lra Reals Permutation Arith.
From Verif Require Import Base Num Lists M_Dataset M_Ensemble S_Ensemble L_Ensemble L_Ensemble2 L_Ensemble3 L_Loaders M_Topology L_Topology M_Feature S_Feature L_Feature L_Feature2 L_Feature3 L_Feature4.
Import ListNotations.
Local Open Scope Z_scope.

Lemma nodup_tree {N : Num.num} (e : ensemble N) ts ws k t : laid_out e ts ws -> nth_error ts k = Some t -> NoDup (marks t).
Proof.
  intros [_ [Hc _]] Ht. destruct (consecutive_nth _ _ _ _ Hc Ht) as (_ & Hp & _).
  apply (Permutation_NoDup (Permutation_sym Hp)), zrange_nodup.
Qed.

Lemma skipn_S {A} k : forall l : list A, skipn (S k) l = tl (skipn k l).
Proof. induction k as [|k IH]; intros [|a l]; try reflexivity. cbn [skipn] in *. apply IH. Qed.

Section Any.
Context {N : Num.num} (red : list N -> N).
Variable (e : ensemble N) (ts : list (tree Z N)) (ws : list N) (d : dataset N).
Hypothesis Hlay : laid_out e ts ws.
Hypothesis Hfit : fits (ds_X d) (ds_nf d).
Hypothesis Hy : length (ds_y d) = length (ds_X d).
Hypothesis Hvis : Forall (visitable (ds_X d) (ds_nf d)) ts.
Notation rows := (ds_X d).
Notation n := (Z.of_nat (length rows)).

Definition one_tree (s : list N * list Z * list N) (t : Z) : res (list N * list Z * list N) :=
  let '(imp, cnt, yp) := s in
  do r <- importance_tree red e (concat rows) (ds_y d) (Z.of_nat (ds_nf d)) n t imp cnt yp;
  let '(imp', cnt', yp', _) := r in Ok (imp', cnt', yp').

Lemma ws_length : length ws = length ts.
Proof. destruct Hlay as [[H1 [H2 [H3 [H4 _]]]] _]. congruence. Qed.
Lemma ntrees : e_ntrees e = Z.of_nat (length ts).
Proof. destruct Hlay as [[H1 _] _]. exact H1. Qed.

Lemma one_tree_ok k t w imp cnt yp : nth_error ts k = Some t -> nth_error ws k = Some w ->
  length imp = ds_nf d -> length cnt = ds_nf d -> length yp = length rows ->
  exists s, one_tree (imp, cnt, yp) (Z.of_nat k) = Ok (f_imp s, f_cnt s, map (fun p => nf32 (nadd (fst p) (snd p))) (combine yp (map (fun v => nf32 (nmul v w)) (f_yt s)))) /\
    run red rows (targets (ds_y d) yp) t (zrange 0 n) (start_state red rows (targets (ds_y d) yp) imp cnt) s /\ sized rows (ds_nf d) s.
Proof.
  intros Ht Hw Hi Hc Hp. assert (V : visitable rows (ds_nf d) t) by (rewrite Forall_forall in Hvis; apply Hvis; apply (nth_error_In _ _ Ht)).
  destruct (tree_ok red e ts ws rows (ds_nf d) k t w (ds_y d) yp imp cnt Hlay Ht Hw Hfit Hy Hp Hi Hc V) as [s [E [Hr [Hs _]]]].
  exists s. unfold one_tree. rewrite E. split; [reflexivity|]. split; assumption.
Qed.

Definition total_visits (f : Z) (us : list (tree Z N)) : Z := fold_right (fun t a => visits_of f (visited rows t (zrange 0 n)) + a) 0 us.

Lemma model_counts : forall us k imp cnt yp, skipn k ts = us ->
  length imp = ds_nf d -> length cnt = ds_nf d -> length yp = length rows -> (forall g, 0 <= nth g cnt 0 < 2 ^ 16) ->
  exists imp' cnt' yp', foldM one_tree (zrange (Z.of_nat k) (Z.of_nat k + Z.of_nat (length us))) (imp, cnt, yp) = Ok (imp', cnt', yp') /\
    length imp' = ds_nf d /\ length cnt' = ds_nf d /\
    (forall f, 0 <= f < Z.of_nat (ds_nf d) -> nth (Z.to_nat f) cnt' 0 = wrap_u 16 (nth (Z.to_nat f) cnt 0 + total_visits f us)).
Proof.
  induction us as [|t us IH]; intros k imp cnt yp E Hi Hc Hp Hb.
  - exists imp, cnt, yp. cbn [length]. rewrite Z.add_0_r. unfold zrange. rewrite Z.sub_diag. split; [reflexivity|]. split; [exact Hi|]. split; [exact Hc|].
    intros f _. cbn [total_visits fold_right]. unfold wrap_u. rewrite Z.add_0_r, Z.mod_small by apply Hb. reflexivity.
  - assert (Ht : nth_error ts k = Some t).
    { rewrite <- (firstn_skipn k ts), E. assert (Hl : length (firstn k ts) = k).
      { rewrite firstn_length. apply Nat.min_l. destruct (Nat.le_gt_cases k (length ts)); [assumption|]. rewrite skipn_all2 in E by lia. discriminate. }
      rewrite nth_error_app2, Hl, Nat.sub_diag by lia. reflexivity. }
    assert (Hk : (k < length ts)%nat) by (apply nth_error_Some; congruence).
    destruct (nth_error ws k) as [w|] eqn:Hw; [|apply nth_error_None in Hw; rewrite ws_length in Hw; lia].
    destruct (one_tree_ok k t w imp cnt yp Ht Hw Hi Hc Hp) as [s [E1 [Hr [S1 [S2 [S3 S4]]]]]].
    assert (V : visitable rows (ds_nf d) t) by (rewrite Forall_forall in Hvis; apply Hvis; apply (nth_error_In _ _ Ht)).
    destruct V as [_ [Hfs _]].
    destruct (run_cnt red rows (ds_nf d) (targets (ds_y d) yp) t _ _ _ Hr Hfs Hc Hb) as [_ [C1 C2]].
    cbn [length]. rewrite zrange_cons by lia. cbn [foldM]. rewrite E1. cbn [bind].
    destruct (IH (S k) (f_imp s) (f_cnt s) (map (fun p => nf32 (nadd (fst p) (snd p))) (combine yp (map (fun v => nf32 (nmul v w)) (f_yt s)))))
      as [imp' [cnt' [yp' [E2 [I2 [C3 C4]]]]]]; try assumption.
    + rewrite (skipn_S k ts), E. reflexivity.
    + rewrite map_length, combine_length, map_length, S2, Hp. apply Nat.min_id.
    + exists imp', cnt', yp'. split.
      * replace (Z.of_nat k + 1) with (Z.of_nat (S k)) by lia. replace (Z.of_nat k + Z.of_nat (S (length us))) with (Z.of_nat (S k) + Z.of_nat (length us)) by lia. exact E2.
      * split; [exact I2|]. split; [exact C3|]. intros f Hf. rewrite (C4 f Hf), (C1 f Hf). cbn [start_state f_cnt]. change (total_visits f (t :: us)) with (visits_of f (visited rows t (zrange 0 n)) + total_visits f us).
        unfold wrap_u. rewrite Zplus_mod_idemp_l. f_equal. lia.
Qed.

Lemma eff_ok : exists imp cnt, eff_importance red e d = Ok (imp, cnt) /\ length imp = ds_nf d /\ length cnt = ds_nf d /\
  forall f, 0 <= f < Z.of_nat (ds_nf d) -> nth (Z.to_nat f) cnt 0 = wrap_u 16 (total_visits f ts).
Proof.
  destruct (model_counts ts 0 (repeat nzero (ds_nf d)) (repeat 0 (ds_nf d)) (repeat nzero (length rows)) eq_refl) as [imp [cnt [yp [E [I [C V]]]]]].
  - apply repeat_length.
  - apply repeat_length.
  - apply repeat_length.
  - intros g. rewrite nth_repeat. lia.
  - exists imp, cnt. unfold eff_importance. rewrite ntrees.
    change (zrange (Z.of_nat 0) (Z.of_nat 0 + Z.of_nat (length ts))) with (zrange 0 (Z.of_nat (length ts))) in E.
    unfold one_tree in E. rewrite E. split; [reflexivity|]. split; [exact I|]. split; [exact C|].
    intros f Hf. rewrite (V f Hf), nth_repeat. reflexivity.
Qed.
End Any.

(** ** Real arithmetic *)
Local Open Scope R_scope.

Section Ext.
Variable rows : list (list RE).
Lemma visited_in (t : tree Z RE) : forall M p, In p (visited rows t M) -> incl (snd (fst p) ++ snd p) M.
Proof.
  induction t as [i v|i f thr l IHl r IHr]; intros M p Hp; cbn [visited] in Hp; [destruct Hp|].
  assert (IL : incl (lefts rows f thr M) M) by (intros k Hk; apply filter_In in Hk; apply Hk).
  assert (IR : incl (rights rows f thr M) M) by (intros k Hk; apply filter_In in Hk; apply Hk).
  destruct Hp as [<-|Hp]; [cbn [fst snd]; apply incl_app; assumption|]. apply in_app_or in Hp. destruct Hp as [Hp|Hp].
  - destruct (2 <=? length (lefts rows f thr M))%nat; [|destruct Hp]. apply (incl_tran (IHl _ _ Hp) IL).
  - destruct (2 <=? length (rights rows f thr M))%nat; [|destruct Hp]. apply (incl_tran (IHr _ _ Hp) IR).
Qed.
Lemma mean_ext y y' M : (forall i, In i M -> y i = y' i) -> mean y M = mean y' M.
Proof. intros H. unfold mean. rewrite (Rtotal_ext y y' M H). reflexivity. Qed.
Lemma sse_mean_ext y y' M : (forall i, In i M -> y i = y' i) -> sse_mean y M = sse_mean y' M.
Proof. intros H. unfold sse_mean, sse. rewrite (mean_ext y y' M H). apply Rtotal_ext. intros i Hi. rewrite (H i Hi). reflexivity. Qed.
Lemma gain_ext y y' p : (forall i, In i (snd (fst p) ++ snd p) -> y i = y' i) -> gain y p = gain y' p.
Proof.
  intros H. unfold gain. rewrite (sse_mean_ext y y' _ H), (sse_mean_ext y y' (snd (fst p))), (sse_mean_ext y y' (snd p)); [reflexivity| |];
  intros i Hi; apply H, in_or_app; auto.
Qed.
Lemma gains_ext y y' f (t : tree Z RE) M : (forall i, In i M -> y i = y' i) -> gains_of y f (visited rows t M) = gains_of y' f (visited rows t M).
Proof.
  intros H. unfold gains_of. apply Rtotal_ext. intros p Hp. apply filter_In in Hp. apply gain_ext. intros i Hi. apply H.
  apply (visited_in t M p (proj1 Hp)). exact Hi.
Qed.
Lemma mates_in (t : tree Z RE) j M : incl (leaf_mates rows t j M) M.
Proof. intros k Hk. apply filter_In in Hk. apply Hk. Qed.
End Ext.

(** The importances and their sum. *)
Lemma Rtotal_map_add {A} (a b : A -> R) l : Rtotal (map (fun i => a i + b i) l) = Rtotal (map a l) + Rtotal (map b l).
Proof. induction l as [|x l IH]; cbn [map]; [change (Rtotal []) with 0; lra|]. rewrite !Rtotal_cons, IH. lra. Qed.
Lemma Rtotal_nth (l : list R) : Rtotal l = Rtotal (map (fun f => nth (Z.to_nat f) l 0) (zrange 0 (Z.of_nat (length l)))).
Proof.
  f_equal. apply nth_error_ext'. intro j. rewrite zrange_seq, map_map, nth_error_map', nth_error_seq.
  destruct (Nat.ltb_spec j (length l)) as [H|H]; cbn [option_map].
  - rewrite Nat.add_0_l, Nat2Z.id. apply nth_error_nth'. exact H.
  - apply nth_error_None. exact H.
Qed.
Lemma one_index (f : Z) x k : (0 <= f < Z.of_nat k)%Z -> Rtotal (map (fun h => if Z.eqb f h then x else 0) (zrange 0 (Z.of_nat k))) = x.
Proof.
  intros Hf. assert (E : zrange 0 (Z.of_nat k) = zrange 0 f ++ f :: zrange (f + 1) (Z.of_nat k)).
  { rewrite <- (zrange_cons f) by lia. symmetry. apply zrange_app; lia. }
  rewrite E, map_app, Rtotal_app. cbn [map]. rewrite Rtotal_cons, Z.eqb_refl.
  assert (Z0 : forall l, ~ In f l -> Rtotal (map (fun h => if Z.eqb f h then x else 0) l) = 0).
  { induction l as [|a l IH]; intros HN; [reflexivity|]. cbn [map]. rewrite Rtotal_cons, IH by (intro C; apply HN; right; exact C).
    destruct (Z.eqb_spec f a) as [->|]; [exfalso; apply HN; left; reflexivity|lra]. }
  rewrite !Z0; [lra| |]; intro C; apply in_zrange in C; lia.
Qed.
Lemma gains_total y (v : list (Z * list Z * list Z)) k : Forall (fun p => (0 <= fst (fst p) < Z.of_nat k)%Z) v ->
  Rtotal (map (fun f => gains_of y f v) (zrange 0 (Z.of_nat k))) = Rtotal (map (gain y) v).
Proof.
  induction 1 as [|p v Hp _ IH].
  - unfold gains_of. cbn [filter map]. change (Rtotal []) with 0. induction (zrange 0 (Z.of_nat k)) as [|a l IH]; [reflexivity|]. cbn [map]. rewrite Rtotal_cons, IH. lra.
  - cbn [map]. rewrite Rtotal_cons, <- IH, <- (one_index (fst (fst p)) (gain y p) k Hp), <- Rtotal_map_add. f_equal. apply map_ext. intro f. apply gains_cons.
Qed.
Lemma visited_splits (rows : list (list RE)) (P : Z -> Prop) (t : tree Z RE) : Forall P (splits t) -> forall M, Forall (fun p => P (fst (fst p))) (visited rows t M).
Proof.
  induction t as [i v|i f thr l IHl r IHr]; intros H M; cbn [visited]; [constructor|]. cbn [splits] in H. inversion H as [|? ? Hf H']; subst.
  apply Forall_app in H'. destruct H' as [H1 H2]. constructor; [exact Hf|]. apply Forall_app. split.
  - destruct (2 <=? _)%nat; [apply IHl; exact H1|constructor].
  - destruct (2 <=? _)%nat; [apply IHr; exact H2|constructor].
Qed.

Section Model.
Variable (red : list RE -> RE).
Hypothesis red_exact : forall l, red l = Rtotal l.
Variable (e : ensemble RE) (ts : list (tree Z RE)) (ws : list RE) (d : dataset RE).
Hypothesis Hlay : laid_out e ts ws.
Hypothesis Hfit : fits (ds_X d) (ds_nf d).
Hypothesis Hy : length (ds_y d) = length (ds_X d).
Hypothesis Hvis : Forall (visitable (ds_X d) (ds_nf d)) ts.
Notation rows := (ds_X d).
Notation n := (Z.of_nat (length rows)).
Notation all := (zrange 0 n).

Definition target (y yp : list R) (i : Z) : R := nth (Z.to_nat i) y 0 - nth (Z.to_nat i) yp 0.

Lemma targets_nth (y yp : list RE) i : length y = length yp -> (0 <= i < Z.of_nat (length y))%Z -> yv (N:=RE) (targets y yp) i = target y yp i.
Proof.
  intros E Hi. unfold yv, targets, target. apply nth_error_nth. rewrite nth_error_map'.
  rewrite (combine_nth_error y yp (Z.to_nat i) (nth (Z.to_nat i) y 0) (nth (Z.to_nat i) yp 0)); [reflexivity| |]; apply nth_error_nth'; lia.
Qed.
Lemma targets_total (y yp : list RE) k : length y = k -> length yp = k ->
  Rtotal (targets y yp) = Rtotal (map (yv (N:=RE) (targets y yp)) (zrange 0 (Z.of_nat k))).
Proof.
  intros H1 H2. assert (L : @length R (targets y yp) = k) by (unfold targets; change R with (car RE); rewrite map_length, combine_length; lia).
  rewrite (Rtotal_nth (targets y yp)), L. reflexivity.
Qed.

Lemma tree_real k t w imp cnt yp : nth_error ts k = Some t -> nth_error ws k = Some w ->
  length imp = ds_nf d -> length cnt = ds_nf d -> length yp = length rows ->
  exists imp' cnt' yp', one_tree red e d (imp, cnt, yp) (Z.of_nat k) = Ok (imp', cnt', yp') /\
    length imp' = ds_nf d /\ length cnt' = ds_nf d /\ length yp' = length rows /\
    (forall i, In i all -> nth (Z.to_nat i) yp' 0 = nth (Z.to_nat i) yp 0 + w * mean (target (ds_y d) yp) (leaf_mates rows t i all)) /\
    (forall f, (0 <= f < Z.of_nat (ds_nf d))%Z ->
       nth (Z.to_nat f) imp' 0 = nth (Z.to_nat f) imp 0 + gains_of (target (ds_y d) yp) f (visited rows t all) / INR (length rows)).
Proof.
  intros Ht Hw Hi Hc Hp.
  destruct (one_tree_ok red e ts ws d Hlay Hfit Hy Hvis k t w imp cnt yp Ht Hw Hi Hc Hp) as [s [E [Hr [S1 [S2 [S3 S4]]]]]].
  assert (V : visitable rows (ds_nf d) t) by (rewrite Forall_forall in Hvis; apply Hvis; apply (nth_error_In _ _ Ht)).
  destruct V as [_ [Hfs _]]. set (yt := targets (ds_y d) yp) in *.
  assert (X : forall i, In i all -> yv (N:=RE) yt i = target (ds_y d) yp i).
  { intros i Hi'. apply in_zrange in Hi'. apply targets_nth; [congruence|lia]. }
  assert (P0 : forall j, In j all -> pv (start_state red rows yt imp cnt) j = mean (yv (N:=RE) yt) all).
  { intros j Hj. apply in_zrange in Hj. unfold pv, start_state. cbn [f_yt].
    rewrite (nth_indep (repeat _ (length rows)) _ (nf32 (ndiv (nf32 (red yt)) (nofZ n)))) by (rewrite repeat_length; lia).
    rewrite nth_repeat, red_exact. unfold yt at 1. rewrite (targets_total _ _ (length rows) Hy Hp). fold yt. unfold mean. rewrite zrange_length.
    replace (Z.to_nat (n - 0)) with (length rows) by lia. rewrite INR_IZR_INZ. reflexivity. }
  destruct (run_real red rows (ds_nf d) yt red_exact t all _ s Hr (nodup_tree e ts ws k t Hlay Ht) Hfs Hi P0) as [A [_ [L I]]].
  eexists _, _, _. split; [exact E|]. split; [exact L|]. split; [exact S4|]. split; [|split].
  - rewrite map_length, combine_length, map_length, S2, Hp. apply Nat.min_id.
  - intros i Hi'. specialize (A i Hi'). assert (Hi2 := Hi'). apply in_zrange in Hi2. apply nth_error_nth. rewrite nth_error_map'.
    rewrite (combine_nth_error _ _ (Z.to_nat i) (nth (Z.to_nat i) yp 0) (pv s i * w)).
    + cbn [option_map fst snd]. rewrite A, (mean_ext (yv (N:=RE) yt) (target (ds_y d) yp)) by (intros j Hj; apply X, (mates_in rows t i all j Hj)).
      f_equal. change (nth (Z.to_nat i) yp 0 + mean (target (ds_y d) yp) (leaf_mates rows t i all) * w = nth (Z.to_nat i) yp 0 + w * mean (target (ds_y d) yp) (leaf_mates rows t i all)). lra.
    + apply nth_error_nth'. lia.
    + rewrite nth_error_map'. rewrite (nth_error_nth' (f_yt s) 0) by lia. reflexivity.
  - intros f Hf. rewrite (I f Hf). cbn [start_state f_imp]. rewrite (gains_ext rows (yv (N:=RE) yt) (target (ds_y d) yp) f t all X). reflexivity.
Qed.

Lemma residuals_ext : forall us vs y y', (forall i, In i all -> y i = y' i) ->
  forall f, Rtotal (map (fun p => gains_of (snd p) f (visited rows (fst p) all)) (combine us (residuals rows all vs us y))) =
            Rtotal (map (fun p => gains_of (snd p) f (visited rows (fst p) all)) (combine us (residuals rows all vs us y'))).
Proof.
  induction us as [|t us IH]; intros [|w vs] y y' H f; try reflexivity. cbn [residuals combine map fst snd]. rewrite !Rtotal_cons.
  rewrite (gains_ext rows y y' f t all H). f_equal. apply IH. intros i Hi. rewrite (H i Hi). f_equal. f_equal.
  apply mean_ext. intros j Hj. apply H. apply (mates_in rows t i all j Hj).
Qed.

Lemma model_real : forall us vs k imp cnt yp, skipn k ts = us -> skipn k ws = vs ->
  length imp = ds_nf d -> length cnt = ds_nf d -> length yp = length rows ->
  exists imp' cnt' yp', foldM (one_tree red e d) (zrange (Z.of_nat k) (Z.of_nat k + Z.of_nat (length us))) (imp, cnt, yp) = Ok (imp', cnt', yp') /\
    length imp' = ds_nf d /\
    (forall f, (0 <= f < Z.of_nat (ds_nf d))%Z -> nth (Z.to_nat f) imp' 0 = nth (Z.to_nat f) imp 0 +
       Rtotal (map (fun p => gains_of (snd p) f (visited rows (fst p) all)) (combine us (residuals rows all vs us (target (ds_y d) yp)))) / INR (length rows)).
Proof.
  induction us as [|t us IH]; intros vs k imp cnt yp E F Hi Hc Hp.
  - exists imp, cnt, yp. cbn [length]. rewrite Z.add_0_r. unfold zrange. rewrite Z.sub_diag. split; [reflexivity|]. split; [exact Hi|].
    intros f _. cbn [combine map]. change (Rtotal []) with 0. lra.
  - assert (Hk : (k < length ts)%nat).
    { destruct (Nat.lt_ge_cases k (length ts)); [assumption|]. rewrite skipn_all2 in E by lia. discriminate. }
    assert (NS : forall A (l : list A) a r, skipn k l = a :: r -> nth_error l k = Some a).
    { clear. intros A l. revert l. induction k as [|k IH]; intros l a r H; [cbn [skipn] in H; subst; reflexivity|]. destruct l; [discriminate|]. apply (IH l a r H). }
    destruct vs as [|w vs].
    { exfalso. apply (f_equal (@length _)) in F. rewrite skipn_length, (ws_length e ts ws Hlay) in F. cbn [length] in F. lia. }
    pose proof (NS _ _ _ _ E) as Ht. pose proof (NS _ _ _ _ F) as Hw.
    destruct (tree_real k t w imp cnt yp Ht Hw Hi Hc Hp) as [imp1 [cnt1 [yp1 [E1 [I1 [C1 [Y1 [V1 G1]]]]]]]].
    destruct (IH vs (S k) imp1 cnt1 yp1) as [imp' [cnt' [yp' [E2 [I2 G2]]]]]; try assumption.
    + rewrite skipn_S, E. reflexivity.
    + rewrite skipn_S, F. reflexivity.
    + exists imp', cnt', yp'. split; [|split; [exact I2|]].
      * cbn [length]. rewrite zrange_cons by lia. cbn [foldM]. rewrite E1. cbn [bind].
        replace (Z.of_nat k + 1)%Z with (Z.of_nat (S k)) by lia. replace (Z.of_nat k + Z.of_nat (S (length us)))%Z with (Z.of_nat (S k) + Z.of_nat (length us))%Z by lia. exact E2.
      * intros f Hf. rewrite (G2 f Hf), (G1 f Hf). cbn [residuals combine map fst snd]. rewrite Rtotal_cons.
        rewrite (residuals_ext us vs (target (ds_y d) yp1) (fun i => target (ds_y d) yp i - w * mean (target (ds_y d) yp) (leaf_mates rows t i all))).
        -- lra.
        -- intros i Hi'. pose proof (V1 i Hi') as Q. unfold target at 1. change (car RE) with R in Q |- *. rewrite Q. set (m := mean _ _). change (target (ds_y d) yp i) with (nth (Z.to_nat i) (ds_y d) 0 - nth (Z.to_nat i) yp 0). change (car RE) with R. ring.
Qed.

Lemma eff_real : exists imp cnt, eff_importance red e d = Ok (imp, cnt) /\ length imp = ds_nf d /\
  forall f, (0 <= f < Z.of_nat (ds_nf d))%Z ->
    nth (Z.to_nat f) imp 0 =
    Rtotal (map (fun p => gains_of (snd p) f (visited rows (fst p) all)) (combine ts (residuals rows all ws ts (fun i => nth (Z.to_nat i) (ds_y d) 0)))) / INR (length rows).
Proof.
  destruct (model_real ts ws 0 (repeat (@nzero RE) (ds_nf d)) (repeat 0%Z (ds_nf d)) (repeat (@nzero RE) (length rows)) eq_refl eq_refl) as [imp [cnt [yp [E [I V]]]]].
  - apply repeat_length.
  - apply repeat_length.
  - apply repeat_length.
  - exists imp, cnt. unfold eff_importance. rewrite (ntrees e ts ws Hlay).
    change (zrange (Z.of_nat 0) (Z.of_nat 0 + Z.of_nat (length ts))) with (zrange 0 (Z.of_nat (length ts))) in E.
    unfold one_tree in E. rewrite E. split; [reflexivity|]. split; [exact I|].
    intros f Hf. rewrite (V f Hf).
    assert (Z0 : forall k j, nth j (repeat (@nzero RE) k) 0 = 0) by (intros k j; apply nth_repeat).
    rewrite Z0, Rplus_0_l. f_equal. apply residuals_ext. intros i _. unfold target. rewrite Z0. apply Rminus_0_r.
Qed.
End Model.
