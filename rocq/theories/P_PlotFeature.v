(** The bar plot of the important features: C80. *)
From Coq Require Import Ascii String List ZArith QArith Lia Lqa Bool.
From Verif Require Import Base M_Text M_PlotFeature S_PlotFeature L_PlotFeature.
Import ListNotations.
Local Open Scope Z_scope.

(** C80 *)
Theorem C80_shows_the_top_features : forall argsort_q argsort_z strict,
  (forall l, ascending Qle 0%Q l (argsort_q l)) -> (forall l, ascending Z.le 0 l (argsort_z l)) ->
  forall importance count names, length count = length importance -> Forall (fun c => 0 <= c < 65536) count ->
  match names with Some l => length l = length importance | None => True end -> forall max_features k, chosen importance max_features k ->
  (exists pic shown, plot_feature_importance argsort_q argsort_z strict importance count max_features ByGain names = Ok pic /\ length shown = k /\
     largest Qle 0%Q importance shown /\ drawn importance count names pic shown /\ p_title pic = lit "Top-k Features by Importance") /\
  (exists pic shown, plot_feature_importance argsort_q argsort_z strict importance count max_features ByCount names = Ok pic /\ length shown = k /\
     largest Z.le 0 count shown /\ drawn importance count names pic shown /\ p_title pic = lit "Top-k Features by Count").
Proof. exact plot_lemma. Qed.
Print Assumptions C80_shows_the_top_features.
Theorem C80_more_than_there_are : forall argsort_q argsort_z strict importance count m by_ names,
  (forall l, ascending Qle 0%Q l (argsort_q l)) -> (forall l, ascending Z.le 0 l (argsort_z l)) -> by_ <> ByOther ->
  length count = length importance -> (2 <= length importance)%nat -> Z.of_nat (length importance) < m ->
  plot_feature_importance argsort_q argsort_z strict importance count (Some m) by_ names = Err ValueError.
Proof. exact too_many. Qed.
Print Assumptions C80_more_than_there_are.
Theorem C80_unknown_order : forall argsort_q argsort_z strict importance count m names,
  plot_feature_importance argsort_q argsort_z strict importance count m ByOther names = Err RuntimeError.
Proof. exact wrong_sort. Qed.
Print Assumptions C80_unknown_order.
(** The ticks of the two axes stand at the same heights, their distance is a multiple of the
    resolution, and they cover the axis. *)
Theorem C80_aligned_ticks : forall lo hi minres n, (0 < minres)%Q -> (lo < hi)%Q -> (2 <= n)%nat -> exists ticks (top : Q) (z : Z),
  aligned_ticks lo hi minres n = Some ticks /\ length ticks = n /\ (hi <= top)%Q /\ (top < hi + minres * inject_Z (Z.of_nat n - 1))%Q /\ 1 <= z /\
  (forall j, (j < n)%nat -> exists t, nth_error ticks j = Some t /\ (t == lo + inject_Z (Z.of_nat j) * (inject_Z z * minres))%Q /\ ((t - lo) / (top - lo) == inject_Z (Z.of_nat j) / inject_Z (Z.of_nat n - 1))%Q).
Proof. exact ticks_lemma. Qed.
Print Assumptions C80_aligned_ticks.

Definition sort_q : list Q -> list nat := by_value Qle_bool.
Definition sort_z : list Z -> list nat := by_value Z.leb.
Lemma sort_q_ok : forall l, ascending Qle 0%Q l (sort_q l).
Proof.
  apply by_value_ascending; [apply Qle_bool_iff| |apply Qle_trans].
  intros a b. destruct (Qlt_le_dec a b) as [C|C]; [left; apply Qle_bool_iff, Qlt_le_weak, C|right; apply Qle_bool_iff, C].
Qed.
Lemma sort_z_ok : forall l, ascending Z.le 0 l (sort_z l).
Proof. apply by_value_ascending; [apply Z.leb_le| |apply Z.le_trans]. intros a b. rewrite !Z.leb_le. lia. Qed.
Definition feats : list Q := [1 # 10; 7 # 10; 0; 1 # 2]%Q.
Definition heights (r : res picture) : res (list Q * list Q * list text) :=
  do p <- r; Ok (map b_height (p_importance p), map b_height (p_count p), p_labels p).
Example C80_example :
  heights (plot_feature_importance sort_q sort_z true feats [3; 9; 40; 5] (Some 2) ByGain None) = Ok ([7 # 10; 1 # 2]%Q, [9; 5]%Q, [lit "2"; lit "4"]) /\
  heights (plot_feature_importance sort_q sort_z true feats [3; 9; 40; 5] (Some 2) ByCount (Some [lit "a"; lit "b"; lit "c"; lit "d"])) =
    Ok ([0; 7 # 10]%Q, [40; 9]%Q, [pad16 (lit "c"); lit "               b"]) /\
  heights (plot_feature_importance sort_q sort_z true feats [3; 9; 40; 5] None ByGain None) = Ok ([7 # 10; 1 # 2; 1 # 10; 0]%Q, [9; 5; 3; 40]%Q, [lit "2"; lit "4"; lit "1"; lit "3"]) /\
  plot_feature_importance sort_q sort_z true feats [3; 9; 40; 5] (Some 10) ByGain None = Err ValueError /\
  chosen feats (Some 2) 2.
Proof. do 4 (split; [vm_compute; reflexivity|]). split; [reflexivity|cbn; lia]. Qed.
Example C80_example_ticks : option_map (map Qreduction.Qred) (aligned_ticks 0 (735 # 1000) (7 # 100) 6) = Some (map Qreduction.Qred [0; 21 # 100; 42 # 100; 63 # 100; 84 # 100; 105 # 100]%Q) /\
  option_map (map Qreduction.Qred) (aligned_ticks 0 1050 100 6) = Some (map Qreduction.Qred [0; 300; 600; 900; 1200; 1500]%Q).
Proof. split; vm_compute; reflexivity. Qed.

(** Counts are shown modulo 2^16. *)
Theorem C80_large_counts_refuted : exists importance count pic b, length count = length importance /\ Forall (fun c => 0 <= c) count /\
  plot_feature_importance sort_q sort_z true importance count None ByGain None = Ok pic /\ nth_error (p_count pic) 0 = Some b /\ count = [65537] /\ b_height b = 1%Q.
Proof.
  exists [1%Q], [65537]. eexists. eexists. split; [reflexivity|]. split; [repeat constructor; lia|]. split; [vm_compute; reflexivity|]. split; [vm_compute; reflexivity|]. split; reflexivity.
Qed.
Print Assumptions C80_large_counts_refuted.
(** One feature and more asked for: its bar is drawn many times (older Matplotlib), with one label. *)
Theorem C80_single_feature_refuted : exists importance count pic, length importance = 1%nat /\ length count = 1%nat /\
  plot_feature_importance sort_q sort_z false importance count (Some 10) ByGain None = Ok pic /\ length (p_importance pic) = 10%nat /\ length (p_labels pic) = 1%nat /\
  plot_feature_importance sort_q sort_z true importance count (Some 10) ByGain None = Err ValueError.
Proof. exists [1%Q], [1]. eexists. split; [reflexivity|]. split; [reflexivity|]. split; [vm_compute; reflexivity|]. split; [reflexivity|]. split; [reflexivity|vm_compute; reflexivity]. Qed.
Print Assumptions C80_single_feature_refuted.
(** When no importance is positive the step is not: there are no ticks, or they end below the axis. *)
Theorem C80_step_refuted :
  (exists pic, plot_feature_importance sort_q sort_z true [0%Q; 0%Q] [0; 0] (Some 2) ByGain None = Ok pic /\ forall lo hi, aligned_ticks lo hi (p_step pic) 6 = None) /\
  (exists pic ticks, plot_feature_importance sort_q sort_z true [-1 # 2; -1 # 1]%Q [1; 1] (Some 2) ByGain None = Ok pic /\
     aligned_ticks (-1) (1 # 20) (p_step pic) 6 = Some ticks /\ forall t, In t ticks -> (t < 1 # 20)%Q).
Proof.
  split.
  - eexists. split; [vm_compute; reflexivity|]. intros lo hi. reflexivity.
  - eexists. eexists. split; [vm_compute; reflexivity|]. split; [vm_compute; reflexivity|].
    intros t H. repeat (destruct H as [<-|H]; [vm_compute; reflexivity|]). destruct H.
Qed.
Print Assumptions C80_step_refuted.
