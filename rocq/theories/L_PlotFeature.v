(** Proofs about the bar plot of the important features. *)
From Coq Require Import Ascii String List ZArith QArith Qround Lia Lqa Bool Permutation.
From Verif Require Import Base Lists M_Text L_Ensemble M_PlotFeature S_PlotFeature.
Import ListNotations.
Local Open Scope Z_scope.

(** The first of the reversed order *)
Lemma nth_firstn_lt : forall (A : Type) (d : A) l k i, (i < k)%nat -> nth i (firstn k l) d = nth i l d.
Proof. intros A d. induction l as [|x l IH]; intros [|k] [|i] H; try reflexivity; try lia. cbn [firstn nth]. apply IH. lia. Qed.
Lemma nth_error_lt : forall (A : Type) (l : list A) i a, nth_error l i = Some a -> (i < length l)%nat.
Proof. intros A l i a H. apply nth_error_Some. rewrite H. discriminate. Qed.
Lemma nodup_front : forall (A : Type) (a b : list A), NoDup (a ++ b) -> NoDup a.
Proof. intros A. induction a as [|x a IH]; intros b H; [constructor|]. inversion H; subst. constructor; [|eapply IH; eassumption]. intros C. apply H2. apply in_or_app. left. exact C. Qed.
Lemma nth_error_rev_firstn : forall (A : Type) (l : list A) k i a, nth_error (firstn k (rev l)) i = Some a -> (i < k)%nat /\ (i < length l)%nat /\ nth_error l (length l - 1 - i) = Some a.
Proof.
  intros A l k i a H. assert (Hk : (i < length (firstn k (rev l)))%nat) by (apply nth_error_Some; congruence). rewrite firstn_length, rev_length in Hk.
  split; [lia|]. split; [lia|]. rewrite (nth_error_nth' _ a) in H by (rewrite firstn_length, rev_length; lia).
  rewrite (nth_error_nth' _ a) by lia. rewrite <- H. f_equal. rewrite nth_firstn_lt by lia. rewrite rev_nth by lia. f_equal. lia.
Qed.
Lemma largest_lemma : forall (A : Type) (le : A -> A -> Prop) d l idx k, ascending le d l idx -> largest le d l (firstn k (rev idx)).
Proof.
  intros A le d l idx k [HP HS]. pose proof (Permutation_length HP) as HL. rewrite seq_length in HL.
  assert (ND : NoDup (rev idx)). { apply NoDup_rev. apply (Permutation_NoDup (Permutation_sym HP)). apply seq_NoDup. }
  split; [|split; [|split]].
  - rewrite <- (firstn_skipn k (rev idx)) in ND. apply nodup_front in ND. exact ND.
  - intros f Hf. assert (Hi : In f idx). { apply in_rev. rewrite <- (firstn_skipn k (rev idx)). apply in_or_app. left. exact Hf. }
    apply (Permutation_in _ HP) in Hi. apply in_seq in Hi. lia.
  - intros i j a b Hij Ha Hb. apply nth_error_rev_firstn in Ha, Hb. destruct Ha as (? & ? & Ha), Hb as (? & ? & Hb). eapply HS; [|exact Hb|exact Ha]. lia.
  - intros f g Hf Hg Ng. apply In_nth_error in Hf. destruct Hf as (i & Hi). apply nth_error_rev_firstn in Hi. destruct Hi as (Hk & Hl & Hi).
    assert (Gi : In g idx). { apply (Permutation_in _ (Permutation_sym HP)). apply in_seq. lia. }
    apply In_nth_error in Gi. destruct Gi as (j & Hj). assert (Jl : (j < length idx)%nat) by (apply nth_error_Some; congruence).
    destruct (Nat.lt_ge_cases j (length idx - 1 - i)) as [C|C]; [eapply HS; [exact C|exact Hj|exact Hi]|].
    exfalso. apply Ng. apply (nth_error_In _ (length idx - 1 - j)). rewrite (nth_error_nth' _ g) by (rewrite firstn_length, rev_length; lia). f_equal.
    rewrite nth_firstn_lt by lia. rewrite rev_nth by lia. replace (length idx - S (length idx - 1 - j))%nat with j by lia. apply nth_error_nth. exact Hj.
Qed.

Lemma gather_ok : forall (A : Type) (d : A) (l : list A) idx, (forall i, In i idx -> (i < length l)%nat) ->
  mapM (fun i => of_option IndexError (nth_error l i)) idx = Ok (map (fun i => nth i l d) idx).
Proof. intros A d l idx H. apply mapM_ok. intros i Hi. rewrite (nth_error_nth' l d) by auto. reflexivity. Qed.
Lemma wrapped : forall count, Forall (fun c => 0 <= c < 65536) count -> map (wrap_u 16) count = count.
Proof. induction 1 as [|c l H _ IH]; [reflexivity|]. cbn [map]. rewrite IH. unfold wrap_u. rewrite Z.mod_small by exact H. reflexivity. Qed.
Lemma bars_ok : forall xs hs, length xs = length hs -> bars xs hs = Ok (map (fun p => centered (fst p) (snd p)) (combine xs hs)).
Proof. intros xs hs H. unfold bars. rewrite H, Nat.eqb_refl. reflexivity. Qed.
Lemma bars_nth : forall xs hs i x h, nth_error xs i = Some x -> nth_error hs i = Some h -> nth_error (map (fun p => centered (fst p) (snd p)) (combine xs hs)) i = Some (centered x h).
Proof.
  induction xs as [|x xs IH]; intros [|h hs] [|i] x0 h0 Hx Hh; try discriminate.
  - injection Hx as ->. injection Hh as ->. reflexivity.
  - cbn [combine map nth_error] in *. apply IH; assumption.
Qed.
Lemma q_max_spec : forall l a, exists m, q_max (a :: l) = Ok m /\ In m (a :: l) /\ forall x, In x (a :: l) -> (x <= m)%Q.
Proof.
  intros l a. cbn [q_max]. eexists. split; [reflexivity|]. revert a. induction l as [|y l IH]; intros a.
  - cbn [fold_left]. split; [left; reflexivity|]. intros x [->|[]]. apply Qle_refl.
  - cbn [fold_left]. destruct (Qle_bool a y) eqn:E; destruct (IH (if Qle_bool a y then y else a)) as [H1 H2]; rewrite E in H1, H2.
    + apply Qle_bool_iff in E. split; [right; exact H1|]. intros x [->|Hx]; [|auto]. apply (Qle_trans _ y); [exact E|]. apply H2. left. reflexivity.
    + assert (E' : (y <= a)%Q). { destruct (Qlt_le_dec a y) as [C|C]; [|exact C]. apply Qlt_le_weak, Qle_bool_iff in C. congruence. }
      split. { destruct H1 as [H1|H1]; [left; exact H1|right; right; exact H1]. }
      intros x [->|[->|Hx]]; [apply H2; left; reflexivity| |apply H2; right; exact Hx]. apply (Qle_trans _ a); [exact E'|]. apply H2. left. reflexivity.
Qed.
Lemma index_nth : forall k i, (i < k)%nat -> nth_error (map inject_Z (zrange 0 (Z.of_nat k))) i = Some (inject_Z (Z.of_nat i)).
Proof.
  intros k i H. rewrite zrange_seq, map_map. erewrite map_nth_error; [reflexivity|]. rewrite (nth_error_nth' _ 0%nat) by (rewrite seq_length; exact H). rewrite seq_nth by exact H. reflexivity.
Qed.

Lemma ceil_step : forall m : Q, let s := (inject_Z (Qceiling (m * 10)) / 100)%Q in (m <= 10 * s)%Q /\ (10 * s < m + (1 # 10))%Q.
Proof.
  intros m s. subst s. pose proof (Qle_ceiling (m * 10)) as H1. pose proof (Qceiling_lt (m * 10)) as H2. set (z := Qceiling (m * 10)) in *.
  unfold Z.sub in H2. rewrite inject_Z_plus in H2. change (inject_Z (- (1))) with (-1 # 1)%Q in H2. assert (E : (10 * (inject_Z z / 100) == inject_Z z * (1 # 10))%Q) by field.
  rewrite E. split; lra.
Qed.

Section Plot.
Variables (argsort_q : list Q -> list nat) (argsort_z : list Z -> list nat) (strict : bool).
Hypothesis argsort_q_ok : forall l, ascending Qle 0%Q l (argsort_q l).
Hypothesis argsort_z_ok : forall l, ascending Z.le 0 l (argsort_z l).
Variables (importance : list Q) (count : list Z) (names : option (list text)).
Hypothesis lengths : length count = length importance.
Hypothesis small : Forall (fun c => 0 <= c < 65536) count.
Hypothesis named : match names with Some l => length l = length importance | None => True end.

Lemma slice_shown : forall (idx : list nat) max_features k, length idx = length importance -> chosen importance max_features k ->
  match max_features with Some m => slice_to m (rev idx) | None => rev idx end = firstn k (rev idx) /\
  match max_features with Some m => m | None => Z.of_nat (length importance) end = Z.of_nat k.
Proof.
  intros idx [m|] k HL [H1 H2].
  - subst m. split; [|reflexivity]. unfold slice_to, slice_bound. rewrite rev_length. replace (Z.of_nat k <? 0) with false by (symmetry; apply Z.ltb_ge; lia). rewrite Nat2Z.id. f_equal. lia.
  - subst k. split; [|reflexivity]. rewrite firstn_all2; [reflexivity|]. rewrite rev_length. lia.
Qed.
Lemma draw_lemma : forall shown k title, length shown = k -> (1 <= k)%nat -> (forall f, In f shown -> (f < length importance)%nat) ->
  exists pic,
  (do top_importances <- mapM (fun i => of_option IndexError (nth_error importance i)) shown;
   do top_counts <- mapM (fun i => of_option IndexError (nth_error count i)) shown;
   do bar1 <- bars (map inject_Z (zrange 0 (Z.of_nat k))) top_importances;
   do bar2 <- bars (map (fun x => x + bar_width)%Q (map inject_Z (zrange 0 (Z.of_nat k)))) (map inject_Z top_counts);
   do labels <- match names with
               | Some names => do l <- mapM (fun i => of_option IndexError (nth_error names i)) shown; Ok (map pad16 l)
               | None => Ok (map (fun i => show_Z (Z.of_nat i + 1)) shown)
               end;
   do _ <- (if strict && negb (length (map (fun x => match names with Some _ => x + bar_width / 2 + (15 # 100) | None => x + bar_width / 2 end)%Q (map inject_Z (zrange 0 (Z.of_nat k)))) =? length labels)%nat && negb (length labels =? 0)%nat then Err ValueError else Ok tt);
   do top <- q_max top_importances;
   Ok (mkPicture bar1 bar2 (map (fun x => match names with Some _ => x + bar_width / 2 + (15 # 100) | None => x + bar_width / 2 end)%Q (map inject_Z (zrange 0 (Z.of_nat k)))) labels (- bar_width / 2 - bar_width)%Q (inject_Z (Z.of_nat k - 1) + bar_width * 5 / 2)%Q
        (lit "Top-k Features by " ++ title) (inject_Z (Qceiling (top * 10)) / 100)%Q)) = Ok pic /\ drawn importance count names pic shown /\ p_title pic = lit "Top-k Features by " ++ title.
Proof.
  intros shown k title HL Hk Hs.
  assert (LI : length (map inject_Z (zrange 0 (Z.of_nat k))) = k) by (rewrite map_length, zrange_length; lia).
  rewrite (gather_ok _ 0%Q importance shown) by exact Hs. cbn [bind]. rewrite (gather_ok _ 0 count shown) by (intros i Hi; rewrite lengths; auto). cbn [bind].
  rewrite bars_ok by (rewrite LI, map_length; auto). cbn [bind]. rewrite bars_ok by (rewrite map_length, LI, !map_length; auto). cbn [bind].
  replace (match names with
           | Some names0 => do l <- mapM (fun i => of_option IndexError (nth_error names0 i)) shown; Ok (map pad16 l)
           | None => Ok (map (fun i => show_Z (Z.of_nat i + 1)) shown) end) with (@Ok (list text) (map (label_of names) shown)).
  2:{ unfold label_of. clear LI. destruct names as [l|]; [|reflexivity]. rewrite (gather_ok text [] l shown) by (intros i Hi; rewrite named; auto). cbn [bind]. rewrite map_map. reflexivity. }
  cbn [bind]. rewrite (map_length _ (map inject_Z _)), LI, (map_length (label_of names)), HL, Nat.eqb_refl. cbn [negb]. rewrite andb_false_r. cbn [andb bind].
  destruct shown as [|f0 shown0] eqn:Es; [cbn [length] in HL; lia|]. rewrite <- Es in *.
  destruct (q_max_spec (map (fun i => nth i importance 0%Q) shown0) (nth f0 importance 0%Q)) as (m & E & I & U).
  change (nth f0 importance 0%Q :: map (fun i => nth i importance 0%Q) shown0) with (map (fun i => nth i importance 0%Q) (f0 :: shown0)) in E, I, U. rewrite <- Es in E, I, U. clear Es.
  rewrite E. cbn [bind]. eexists. split; [reflexivity|]. split; [|reflexivity]. unfold drawn. cbn [p_importance p_count p_ticks p_labels p_left p_right p_step].
  rewrite !map_length, !combine_length, !map_length, zrange_length. split; [lia|]. split; [lia|]. split; [lia|]. split; [reflexivity|]. split; [|split].
  - intros i f Hf. assert (Hi : (i < k)%nat). { rewrite <- HL. apply nth_error_Some. congruence. }
    exists (centered (inject_Z (Z.of_nat i)) (nth f importance 0%Q)), (centered (inject_Z (Z.of_nat i) + bar_width)%Q (inject_Z (nth f count 0))), (match names with Some _ => inject_Z (Z.of_nat i) + bar_width / 2 + (15 # 100) | None => inject_Z (Z.of_nat i) + bar_width / 2 end)%Q.
    assert (HX := index_nth k i Hi).
    split. { apply bars_nth; [exact HX|]. exact (map_nth_error (fun i => nth i importance 0%Q) _ _ Hf). }
    split. { apply bars_nth; [exact (map_nth_error (fun x => (x + bar_width)%Q) _ _ HX)|]. rewrite map_map. exact (map_nth_error (fun i => inject_Z (nth i count 0)) _ _ Hf). }
    split; [exact (map_nth_error (fun x => match names with Some _ => x + bar_width / 2 + (15 # 100) | None => x + bar_width / 2 end)%Q _ _ HX)|].
    split; [exact (map_nth_error _ _ _ Hf)|]. split; [reflexivity|]. split; [reflexivity|]. unfold centered. cbn [b_left b_right].
    assert (P0 : (0 <= inject_Z (Z.of_nat i))%Q) by (change 0%Q with (inject_Z 0); rewrite <- Zle_Qle; lia).
    assert (P1 : (inject_Z (Z.of_nat i) <= inject_Z (Z.of_nat k - 1))%Q) by (rewrite <- Zle_Qle; lia).
    assert (B2 : (bar_width / 2 == 35 # 200)%Q) by reflexivity. assert (B3 : (- bar_width / 2 == - (35 # 200))%Q) by reflexivity. assert (B4 : (bar_width * 5 / 2 == 175 # 200)%Q) by reflexivity.
    assert (B1 : (bar_width == 35 # 100)%Q) by reflexivity. rewrite ?B2, ?B3, ?B4, ?B1.
    split; [lra|]. split; [lra|]. split; [lra|]. split; [lra|]. split; [lra|]. split; [destruct names; rewrite ?B2; lra|]. split; [destruct names; rewrite ?B2; lra|].
    intros j b' Hj Hb'. assert (Hjk : (j < k)%nat).
    { pose proof (nth_error_lt _ _ _ _ Hb') as X.
      rewrite map_length, combine_length, LI in X. lia. }
    assert (exists g, nth_error shown j = Some g) as (g & Hg). { destruct (nth_error shown j) as [g|] eqn:Q; [exists g; reflexivity|]. apply nth_error_None in Q. lia. }
    pose proof (bars_nth _ _ j _ _ (index_nth k j Hjk) (map_nth_error (fun i => nth i importance 0%Q) _ _ Hg)) as X2. unfold centered in X2. rewrite X2 in Hb'. injection Hb' as <-. cbn [b_left centered].
    assert (P2 : (inject_Z (Z.of_nat i) + 1 <= inject_Z (Z.of_nat j))%Q). { change 1%Q with (inject_Z 1). rewrite <- inject_Z_plus, <- Zle_Qle. lia. }
    unfold centered. cbn [b_left]. rewrite ?B2. lra.
  - intros f Hf. apply (Qle_trans _ m); [apply U; apply in_map_iff; exists f; auto|]. apply ceil_step.
  - apply in_map_iff in I. destruct I as (f & Ef & If). exists f. split; [exact If|]. rewrite Ef. apply ceil_step.
Qed.
Lemma plot_lemma : forall max_features k, chosen importance max_features k ->
  (exists pic shown, plot_feature_importance argsort_q argsort_z strict importance count max_features ByGain names = Ok pic /\ length shown = k /\
     largest Qle 0%Q importance shown /\ drawn importance count names pic shown /\ p_title pic = lit "Top-k Features by Importance") /\
  (exists pic shown, plot_feature_importance argsort_q argsort_z strict importance count max_features ByCount names = Ok pic /\ length shown = k /\
     largest Z.le 0 count shown /\ drawn importance count names pic shown /\ p_title pic = lit "Top-k Features by Count").
Proof.
  intros max_features k C. unfold plot_feature_importance. rewrite (wrapped count small). cbn [bind fst snd].
  assert (Kb : (1 <= k <= length importance)%nat) by apply C. split.
  - pose proof (argsort_q_ok importance) as A. assert (L : length (argsort_q importance) = length importance) by (rewrite (Permutation_length (proj1 A)), seq_length; reflexivity).
    destruct (slice_shown _ max_features k L C) as [E1 E2]. rewrite E1, E2. pose proof (largest_lemma _ _ _ _ _ k A) as G.
    assert (LS : length (firstn k (rev (argsort_q importance))) = k) by (rewrite firstn_length, rev_length; lia).
    destruct (draw_lemma _ k (lit "Importance") LS (proj1 Kb) (proj1 (proj2 G))) as (pic & P & Dr & T). exists pic, (firstn k (rev (argsort_q importance))). split; [exact P|]. split; [exact LS|]. split; [exact G|]. split; [exact Dr|exact T].
  - pose proof (argsort_z_ok count) as A. assert (L : length (argsort_z count) = length importance) by (rewrite (Permutation_length (proj1 A)), seq_length; exact lengths).
    destruct (slice_shown _ max_features k L C) as [E1 E2]. rewrite E1, E2. pose proof (largest_lemma _ _ _ _ _ k A) as G.
    assert (LS : length (firstn k (rev (argsort_z count))) = k) by (rewrite firstn_length, rev_length; lia).
    assert (G' : forall f, In f (firstn k (rev (argsort_z count))) -> (f < length importance)%nat) by (intros f Hf; rewrite <- lengths; apply (proj1 (proj2 G)); exact Hf).
    destruct (draw_lemma _ k (lit "Count") LS (proj1 Kb) G') as (pic & P & Dr & T). exists pic, (firstn k (rev (argsort_z count))). split; [exact P|]. split; [exact LS|]. split; [exact G|]. split; [exact Dr|exact T].
Qed.
End Plot.

(** Calls that fail *)
Lemma wrong_sort : forall aq az strict importance count m names, plot_feature_importance aq az strict importance count m ByOther names = Err RuntimeError.
Proof. reflexivity. Qed.
Lemma too_many : forall aq az strict importance count m by_ names, (forall l, ascending Qle 0%Q l (aq l)) -> (forall l, ascending Z.le 0 l (az l)) -> by_ <> ByOther ->
  length count = length importance -> (2 <= length importance)%nat -> Z.of_nat (length importance) < m ->
  plot_feature_importance aq az strict importance count (Some m) by_ names = Err ValueError.
Proof.
  intros aq az strict importance count m by_ names Hq Hz Hb HL Hn Hm.
  assert (Main : forall idx (title : text), Permutation idx (seq 0 (length importance)) ->
    (do top_importances <- mapM (fun i => of_option IndexError (nth_error importance i)) (slice_to m (rev idx));
     do top_counts <- mapM (fun i => of_option IndexError (nth_error (map (wrap_u 16) count) i)) (slice_to m (rev idx));
     bars (map inject_Z (zrange 0 m)) top_importances) = Err ValueError).
  { intros idx title HP. pose proof (Permutation_length HP) as L. rewrite seq_length in L.
    assert (E : slice_to m (rev idx) = rev idx). { unfold slice_to. apply firstn_all2. unfold slice_bound. rewrite rev_length. replace (m <? 0) with false by (symmetry; apply Z.ltb_ge; lia). lia. }
    assert (B : forall i, In i (rev idx) -> (i < length importance)%nat). { intros i Hi. apply in_rev in Hi. apply (Permutation_in _ HP) in Hi. apply in_seq in Hi. lia. }
    rewrite E, (gather_ok _ 0%Q importance _ B). cbn [bind]. rewrite (gather_ok _ 0 (map (wrap_u 16) count)) by (intros i Hi; rewrite map_length, HL; auto). cbn [bind].
    assert (L1 : length (map inject_Z (zrange 0 m)) = Z.to_nat m) by (rewrite map_length, zrange_length; lia).
    assert (L2 : length (map (fun i => nth i importance 0%Q) (rev idx)) = length importance) by (rewrite map_length, rev_length; exact L).
    unfold bars. rewrite L1, L2. replace (Z.to_nat m =? length importance)%nat with false by (symmetry; apply Nat.eqb_neq; lia).
    destruct (map (fun i => nth i importance 0%Q) (rev idx)) as [|h1 [|h2 hs]]; try (cbn [length] in L2; lia).
    destruct (map inject_Z (zrange 0 m)) as [|x1 [|x2 xs]]; try (cbn [length] in L1; lia); reflexivity. }
  unfold plot_feature_importance. destruct by_; [| |congruence]; cbn [bind fst snd].
  - specialize (Main _ (lit "") (proj1 (Hq importance))). revert Main.
    destruct (mapM _ (slice_to m (rev (aq importance)))) as [a|e]; cbn [bind]; [|intros H; injection H as ->; reflexivity].
    destruct (mapM (fun i => of_option IndexError (nth_error (map (wrap_u 16) count) i)) _) as [b|e]; cbn [bind]; [|intros H; injection H as ->; reflexivity].
    intros ->. reflexivity.
  - assert (P : Permutation (az (map (wrap_u 16) count)) (seq 0 (length importance))) by (pose proof (proj1 (Hz (map (wrap_u 16) count))) as P; rewrite map_length, HL in P; exact P).
    specialize (Main _ (lit "") P). revert Main.
    destruct (mapM _ (slice_to m (rev (az _)))) as [a|e]; cbn [bind]; [|intros H; injection H as ->; reflexivity].
    destruct (mapM (fun i => of_option IndexError (nth_error (map (wrap_u 16) count) i)) _) as [b|e]; cbn [bind]; [|intros H; injection H as ->; reflexivity].
    intros ->. reflexivity.
Qed.

(** Ticks *)
Lemma q_mod_spec : forall x f, (0 < f)%Q -> exists r z, q_mod x f = Some r /\ (r == x - f * inject_Z z)%Q /\ (0 <= r)%Q /\ (r < f)%Q.
Proof.
  intros x f Hf. unfold q_mod. destruct (Qeq_bool f 0) eqn:E; [apply Qeq_bool_iff in E; lra|]. eexists. exists (Qfloor (x / f)). split; [reflexivity|]. split; [reflexivity|].
  pose proof (Qfloor_le (x / f)) as H1. pose proof (Qlt_floor (x / f)) as H2. set (z := Qfloor (x / f)) in *. rewrite inject_Z_plus in H2. change (inject_Z 1) with 1%Q in H2.
  assert (X : (x == f * (x / f))%Q) by (field; lra). set (y := (x / f)%Q) in *. assert (A : (f * inject_Z z <= f * y)%Q) by (apply Qmult_le_l; assumption).
  assert (B : (f * y < f * (inject_Z z + 1))%Q) by (apply Qmult_lt_l; assumption). split; lra.
Qed.
Lemma ticks_lemma : forall lo hi minres n, (0 < minres)%Q -> (lo < hi)%Q -> (2 <= n)%nat -> exists ticks (top : Q) (z : Z),
  aligned_ticks lo hi minres n = Some ticks /\ length ticks = n /\ (hi <= top)%Q /\ (top < hi + minres * inject_Z (Z.of_nat n - 1))%Q /\ 1 <= z /\
  (forall j, (j < n)%nat -> exists t, nth_error ticks j = Some t /\ (t == lo + inject_Z (Z.of_nat j) * (inject_Z z * minres))%Q /\ ((t - lo) / (top - lo) == inject_Z (Z.of_nat j) / inject_Z (Z.of_nat n - 1))%Q).
Proof.
  intros lo hi minres n Hm Hl Hn. unfold aligned_ticks. set (c := inject_Z (Z.of_nat n - 1)). assert (C : (1 <= c)%Q) by (unfold c; change 1%Q with (inject_Z 1); rewrite <- Zle_Qle; lia).
  set (f := (minres * c)%Q). assert (F : (0 < f)%Q) by (unfold f; apply (Qlt_le_trans _ (minres * 1)); [lra|apply Qmult_le_l; assumption]).
  destruct (q_mod_spec (hi - lo) f F) as (a & za & E1 & A1 & A2 & A3). rewrite E1. destruct (q_mod_spec (f - a) f F) as (b & zb & E2 & B1 & B2 & B3). rewrite E2.
  assert (D : (hi + b - lo == f * inject_Z (1 + za - zb))%Q). { rewrite B1, A1. unfold Z.sub. rewrite !inject_Z_plus, inject_Z_opp. change (inject_Z 1) with 1%Q. ring. }
  exists (linspace lo (hi + b) n), (hi + b)%Q, (1 + za - zb). split; [reflexivity|]. split; [unfold linspace; rewrite map_length, seq_length; reflexivity|]. split; [lra|]. split; [lra|]. split.
  - destruct (Z_lt_le_dec 0 (1 + za - zb)) as [P|P]; [lia|]. exfalso. assert (Q1 : (inject_Z (1 + za - zb) <= 0)%Q) by (change 0%Q with (inject_Z 0); rewrite <- Zle_Qle; exact P).
    assert (Q2 : (f * inject_Z (1 + za - zb) <= f * 0)%Q) by (apply Qmult_le_l; assumption). lra.
  - intros j Hj. set (z := 1 + za - zb) in *. eexists. split; [unfold linspace; rewrite (map_nth_error _ _ _ (d:=j)); [reflexivity|]; rewrite (nth_error_nth' _ 0%nat) by (rewrite seq_length; exact Hj); rewrite seq_nth by exact Hj; reflexivity|].
    fold c. assert (DD : ((hi + b - lo) / c == inject_Z z * minres)%Q) by (rewrite D; unfold f; field; lra). rewrite DD. split; [reflexivity|].
    assert (N0 : ~ (hi + b - lo == 0)%Q) by lra. rewrite <- DD. field. split; [lra|exact N0].
Qed.

(** A sort as assumed of np.argsort. *)
Definition by_value {A} (leb : A -> A -> bool) (l : list A) : list nat := map snd (isort (fun p q => leb (fst p) (fst q)) (combine l (seq 0 (length l)))).
Lemma combine_snd : forall (A B : Type) (l : list A) (m : list B), length l = length m -> map snd (combine l m) = m.
Proof. induction l as [|a l IH]; intros [|b m] H; try discriminate; [reflexivity|]. cbn [combine map snd]. rewrite IH; [reflexivity|]. cbn [length] in H. lia. Qed.
Lemma combine_seq : forall (A : Type) (d : A) l a x i, In (x, i) (combine l (seq a (length l))) -> nth (i - a) l d = x /\ (a <= i)%nat.
Proof.
  intros A d. induction l as [|y l IH]; intros a x i H; [contradiction|]. cbn [length seq combine] in H. destruct H as [H|H].
  - injection H as -> ->. rewrite Nat.sub_diag. split; [reflexivity|lia].
  - destruct (IH _ _ _ H) as [E L]. split; [|lia]. replace (i - a)%nat with (S (i - S a)) by lia. exact E.
Qed.
Lemma by_value_ascending : forall (A : Type) (leb : A -> A -> bool) (le : A -> A -> Prop) (d : A), (forall a b, leb a b = true <-> le a b) ->
  (forall a b, leb a b = true \/ leb b a = true) -> (forall a b c, le a b -> le b c -> le a c) -> forall l, ascending le d l (by_value leb l).
Proof.
  intros A leb le d HL HT HR l. unfold by_value. set (L := combine l (seq 0 (length l))). set (pleb := fun p q : A * nat => leb (fst p) (fst q)).
  pose proof (isort_perm pleb L) as HP. split.
  - rewrite HP. unfold L. rewrite combine_snd by (rewrite seq_length; reflexivity). reflexivity.
  - assert (SS : Sorted.StronglySorted (fun p q => pleb p q = true) (isort pleb L)).
    { apply isort_sorted; unfold pleb; intros; [apply HT|]. apply HL. eapply HR; apply HL; eassumption. }
    assert (V : forall p, In p (isort pleb L) -> nth (snd p) l d = fst p).
    { intros (x, i) Hp. apply (Permutation_in _ HP) in Hp. destruct (combine_seq A d l 0 x i Hp) as [E _]. rewrite Nat.sub_0_r in E. exact E. }
    intros i j a b Hij Ha Hb. rewrite nth_error_map in Ha, Hb.
    destruct (nth_error (isort pleb L) i) as [p|] eqn:Ep; [|discriminate]. destruct (nth_error (isort pleb L) j) as [q|] eqn:Eq; [|discriminate]. injection Ha as <-. injection Hb as <-.
    rewrite !V by (eapply nth_error_In; eassumption). apply HL. revert i j Hij Ep Eq. clear V HP. induction SS as [|y m SS IH F]; intros i j Hij Ep Eq; [destruct i; discriminate|].
    destruct j as [|j]; [lia|]. destruct i as [|i].
    + injection Ep as ->. rewrite Forall_forall in F. apply F. eapply nth_error_In. exact Eq.
    + apply (IH i j); [lia|exact Ep|exact Eq].
Qed.
