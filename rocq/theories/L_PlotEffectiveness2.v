(** Proofs about the bars of the effectiveness analyses and the colours of the confusion matrix. *)
From Coq Require Import List ZArith QArith Qround Lia Lqa Bool Permutation Sorted.
From Verif Require Import Base Lists M_PlotEffectiveness S_PlotEffectiveness L_PlotEffectiveness.
Import ListNotations.
Local Open Scope Z_scope.

Lemma forall2_map : forall (A B : Type) (P : A -> B -> Prop) (f : A -> B) l, (forall a, In a l -> P a (f a)) -> Forall2 P l (map f l).
Proof. intros A B P f. induction l as [|a l IH]; intros H; [constructor|]. cbn [map]. constructor; [apply H; left; reflexivity|]. apply IH. intros x Hx. apply H. right. exact Hx. Qed.
Lemma bar_series_ok : forall n s show values, (1 <= n)%nat -> Forall2 (fun gv b => bar_of n s (fst gv) show (snd gv) b) (index values) (bar_series n s show values).
Proof.
  intros n s show values Hn. unfold bar_series. apply forall2_map. intros (g, v) _. unfold bar_of, max_width. cbn [fst snd b_left b_right b_height b_text].
  assert (N : ~ (inject_Z (Z.of_nat n) == 0)%Q). { change 0%Q with (inject_Z 0). rewrite inject_Z_injective. lia. }
  split; [field; exact N|]. split; [field; exact N|]. split; [reflexivity|]. destruct show; [|reflexivity]. split; [reflexivity|]. split; [reflexivity|]. field. exact N.
Qed.
Lemma vmax_fold : forall l a, match fold_left vmax2 l a with
  | Some m => (exists y, a = Some y /\ (y <= m)%Q) /\ (forall x, In (Some x) l -> (x <= m)%Q) /\ ~ In None l
  | None => a = None \/ In None l end.
Proof.
  induction l as [|b l IH]; intros a; cbn [fold_left].
  - destruct a as [y|]; [|left; reflexivity]. split; [exists y; split; [reflexivity|apply Qle_refl]|]. split; [intros x []|intros []].
  - specialize (IH (vmax2 a b)). destruct (fold_left vmax2 l (vmax2 a b)) as [m|].
    + destruct IH as ((y & Ey & Hy) & H2 & H3). destruct a as [p|], b as [q|]; try discriminate. cbn [vmax2] in Ey. injection Ey as Ey.
      assert (PQ : (p <= y)%Q /\ (q <= y)%Q).
      { rewrite <- Ey. destruct (Qle_bool p q) eqn:E; [apply Qle_bool_iff in E; split; [exact E|apply Qle_refl]|]. split; [apply Qle_refl|]. destruct (Qlt_le_dec p q) as [C|C]; [|exact C].
        apply Qlt_le_weak, Qle_bool_iff in C. congruence. }
      split; [exists p; split; [reflexivity|apply (Qle_trans _ y); tauto]|]. split; [intros x [E|I]; [injection E as <-; apply (Qle_trans _ y); tauto|auto]|intros [E|I]; [discriminate|auto]].
    + destruct IH as [E|I]; [|right; right; exact I]. destruct a as [p|], b as [q|]; try discriminate; try (left; reflexivity); right; left; reflexivity.
Qed.
Lemma y_limit_ok : forall all y, y_limit all = Ok y -> fits all y /\ ~ In None all.
Proof.
  intros all y H. unfold y_limit, vmax in H. destruct all as [|a l]; [discriminate|]. cbn [bind] in H. pose proof (vmax_fold l a) as V. destruct (fold_left vmax2 l a) as [m|]; [|discriminate]. injection H as <-.
  destruct V as ((z & -> & Hz) & H2 & H3). pose proof (Qle_ceiling (m * (14 # 10) * 10)) as C. split.
  - intros x Hx. assert (X : (x <= m)%Q) by (destruct Hx as [E|I]; [injection E as <-; exact Hz|auto]). set (k := inject_Z (Qceiling (m * (14 # 10) * 10))) in *. assert (E : (k / 10 == k * (1 # 10))%Q) by field. rewrite E. lra.
  - intros [E|I]; [discriminate|auto].
Qed.
Lemma y_limit_total : forall all, all <> [] -> ~ In None all -> exists y, y_limit all = Ok y.
Proof.
  intros all NE N. unfold y_limit, vmax. destruct all as [|a l]; [congruence|]. cbn [bind]. pose proof (vmax_fold l a) as V. destruct (fold_left vmax2 l a) as [m|]; [eexists; reflexivity|]. exfalso. apply N. destruct V as [->|I]; [left; reflexivity|right; exact I].
Qed.
Lemma series_ok : forall (D M T X : Type) (xs : list X) (nm : X -> name D M T) (v : X -> list val) show, (1 <= length xs)%nat ->
  bars_of xs nm v show (map (fun ix => mkBars (nm (snd ix)) (bar_series (length xs) (fst ix) show (v (snd ix)))) (numbered xs)).
Proof.
  intros D M T X xs nm v show H. unfold bars_of, numbered, index. apply forall2_map. intros (i, x) _. cbn [fst snd bs_name bs_bars]. split; [reflexivity|]. apply bar_series_ok. exact H.
Qed.
Lemma ticks_centred : forall n groups, (1 <= n)%nat -> centred n groups (ticks_of n groups).
Proof.
  intros n groups Hn. split; [unfold ticks_of; rewrite map_length, seq_length; reflexivity|]. intros g t Ht. unfold ticks_of in Ht. rewrite nth_error_map in Ht. destruct (nth_error (seq 0 groups) g) as [h|] eqn:E; [|discriminate].
  assert (h = g). { assert (g < groups)%nat by (rewrite <- (seq_length groups 0); apply nth_error_Some; rewrite E; discriminate). rewrite (nth_error_nth' _ 0%nat) in E by (rewrite seq_length; assumption). rewrite seq_nth in E by assumption. injection E as <-. reflexivity. }
  subst h. injection Ht as <-. unfold max_width. cbv zeta. field. change 0%Q with (inject_Z 0). rewrite inject_Z_injective. lia.
Qed.

Section Bars.
Context {D M T : Type}.
Notation nameT := (name D M T).
Lemma nonzero_length : forall (A : Type) (l : list A), (length l =? 0)%nat = false -> (1 <= length l)%nat.
Proof. intros A l H. apply Nat.eqb_neq in H. lia. Qed.
Lemma model_performance_ok : forall ds ms ts (v : D -> M -> T -> val) c show figs, plot_model_performance ds ms ts v c show = Ok figs ->
  match c with
  | CompareModels => Forall2 (fun d p => bp_label p = OfDataset d /\ bars_of ms OfModel (fun m => map (v d m) ts) show (bp_series p) /\ centred (length ms) (length ts) (bp_ticks p)) ds figs
  | CompareMetrics => Forall2 (fun d p => bp_label p = OfDataset d /\ bars_of ts OfMetric (fun t => map (fun m => v d m t) ms) show (bp_series p) /\ centred (length ts) (length ms) (bp_ticks p)) ds figs
  | _ => False
  end /\ forall p d m t, In p figs -> In d ds -> In m ms -> In t ts -> exists x, v d m t = Some x /\ (x * (14 # 10) <= bp_ylim p)%Q.
Proof.
  intros ds ms ts v c show figs H. unfold plot_model_performance in H. set (all := flat_map (fun d => flat_map (fun m => map (v d m) ts) ms) ds) in H.
  assert (IA : forall d m t, In d ds -> In m ms -> In t ts -> In (v d m t) all).
  { intros d m t Hd Hm Ht. apply in_flat_map. exists d. split; [exact Hd|]. apply in_flat_map. exists m. split; [exact Hm|]. apply in_map. exact Ht. }
  assert (G : forall y d m t, y_limit all = Ok y -> In d ds -> In m ms -> In t ts -> exists x, v d m t = Some x /\ (x * (14 # 10) <= y)%Q).
  { intros y d m t Hy Hd Hm Ht. apply y_limit_ok in Hy. destruct Hy as [F N]. specialize (IA d m t Hd Hm Ht). destruct (v d m t) as [x|]; [|contradiction]. exists x. split; [reflexivity|]. apply F. exact IA. }
  clearbody all.
  assert (R : forall (P : D -> bar_panel D M T -> Prop), Forall2 (fun d p => P d p /\ y_limit all = Ok (bp_ylim p)) ds figs ->
    Forall2 P ds figs /\ forall p d m t, In p figs -> In d ds -> In m ms -> In t ts -> exists x, v d m t = Some x /\ (x * (14 # 10) <= bp_ylim p)%Q).
  { intros P F. split; [eapply forall2_impl; [|exact F]; intros a b [X _]; exact X|]. intros p d m t Hp Hd Hm Ht. apply (G _ d m t); auto.
    clear - F Hp. induction F as [|x y l r [_ Q] F IH]; [contradiction|]. destruct Hp as [->|Hp]; [exact Q|auto]. }
  destruct c; try discriminate; apply mapM_inv in H; apply R; (eapply forall2_impl; [|exact H]); intros d p E; cbn beta in E.
  - destruct (length ms =? 0)%nat eqn:Z; [discriminate|]. destruct (y_limit all) as [y|e] eqn:Ey; [|discriminate]. injection E as <-. cbn [bp_label bp_series bp_ticks bp_ylim].
    split; [|reflexivity]. split; [reflexivity|]. split; [|apply ticks_centred, nonzero_length; assumption]. apply (series_ok D M T M ms OfModel (fun m => map (v d m) ts)). apply nonzero_length. exact Z.
  - destruct (length ts =? 0)%nat eqn:Z; [discriminate|]. destruct (y_limit all) as [y|e] eqn:Ey; [|discriminate]. injection E as <-. cbn [bp_label bp_series bp_ticks bp_ylim].
    split; [|reflexivity]. split; [reflexivity|]. split; [|apply ticks_centred, nonzero_length; assumption]. apply (series_ok D M T T ts OfMetric (fun t => map (fun m => v d m t) ms)). apply nonzero_length. exact Z.
Qed.
Lemma model_performance_total : forall ds ms ts (v : D -> M -> T -> val) c show, c = CompareModels \/ c = CompareMetrics -> ms <> [] -> ts <> [] ->
  (forall d m t, In d ds -> In m ms -> In t ts -> v d m t <> None) -> exists figs, plot_model_performance ds ms ts v c show = Ok figs.
Proof.
  intros ds ms ts v c show Hc Nm Nt N. unfold plot_model_performance. set (all := flat_map (fun d => flat_map (fun m => map (v d m) ts) ms) ds).
  assert (Lm : (length ms =? 0)%nat = false) by (destruct ms; [congruence|reflexivity]). assert (Lt : (length ts =? 0)%nat = false) by (destruct ts; [congruence|reflexivity]).
  assert (NN : ~ In None all).
  { intros I. apply in_flat_map in I. destruct I as (d & Hd & I). apply in_flat_map in I. destruct I as (m & Hm & I). apply in_map_iff in I. destruct I as (t & E & Ht). exact (N d m t Hd Hm Ht E). }
  assert (Y : forall d, In d ds -> exists y, y_limit all = Ok y).
  { intros d Hd. apply y_limit_total; [|exact NN]. destruct ms as [|m ms']; [congruence|]. destruct ts as [|t ts']; [congruence|]. intros E.
    assert (I : In (v d m t) all) by (apply in_flat_map; exists d; split; [exact Hd|]; left; reflexivity). rewrite E in I. exact I. }
  destruct Hc as [->| ->]; apply mapM_exists; intros d Hd; destruct (Y d Hd) as (y & Ey); rewrite Ey, ?Lm, ?Lt; eexists; reflexivity.
Qed.
Lemma query_class_ok : forall ds ms ts classes (v : D -> M -> T -> list val) c show figs, plot_query_class ds ms ts classes v c show = Ok figs ->
  match c with
  | CompareMetrics => Forall2 (fun d fig => fst (fst fig) = OfDataset d /\ in_last (map (@bp_legend D M T) (snd fig)) /\
      Forall2 (fun m p => bars_of ts OfMetric (v d m) show (bp_series p) /\ centred (length ts) classes (bp_ticks p)) ms (snd fig)) ds figs
  | CompareModels => Forall2 (fun d fig => fst (fst fig) = OfDataset d /\ in_last (map (@bp_legend D M T) (snd fig)) /\
      Forall2 (fun t p => bp_label p = OfMetric t /\ bars_of ms OfModel (fun m => v d m t) show (bp_series p) /\ centred (length ms) classes (bp_ticks p)) ts (snd fig)) ds figs
  | _ => False
  end.
Proof.
  intros ds ms ts classes v c show figs H. unfold plot_query_class in H. set (all := flat_map _ ds) in H. clearbody all.
  destruct c; try discriminate; apply mapM_inv in H; (eapply forall2_impl; [|exact H]); intros d ((n1, n2), panels) E; cbn beta in E.
  - destruct (length ts =? 0)%nat eqn:Zt; [discriminate|]. destruct (length ms =? 0)%nat eqn:Zm; [discriminate|]. destruct (subplots ts _) as [ps|e] eqn:S; [|discriminate]. cbn [bind] in E. injection E as <- <- <-. cbn [fst snd].
    split; [reflexivity|]. apply subplots_inv in S. destruct S as [NE F].
    assert (F' : Forall2 (fun q p => bp_legend p = is_last (0 + length ts) (fst q) /\ bp_label p = @OfMetric D M T (snd q) /\ bars_of ms OfModel (fun m => v d m (snd q)) show (bp_series p) /\ centred (length ms) classes (bp_ticks p)) (numbered ts) ps).
    { eapply forall2_impl; [|exact F]. intros (i, t) p Q. cbn [fst snd] in *. destruct (y_limit all) as [y|e]; [|discriminate]. injection Q as <-. split; [reflexivity|]. split; [reflexivity|]. split; [|apply ticks_centred, nonzero_length; assumption].
      apply (series_ok D M T M ms OfModel (fun m => v d m t)). apply nonzero_length. exact Zm. }
    split.
    + apply (numbered_last T _ _ ts ps 0); [apply nonzero_length; exact Zt|]. eapply forall2_impl; [|exact F']. intros q p Q. apply Q.
    + eapply forall2_impl; [|apply (forall2_numbered _ _ (fun _ t p => bp_label p = @OfMetric D M T t /\ bars_of ms OfModel (fun m => v d m t) show (bp_series p) /\ centred (length ms) classes (bp_ticks p)) ts ps 0)].
      * intros t p (_ & Q). exact Q.
      * eapply forall2_impl; [|exact F']. intros q p Q. apply Q.
  - destruct (length ms =? 0)%nat eqn:Zm; [discriminate|]. destruct (length ts =? 0)%nat eqn:Zt; [discriminate|]. destruct (subplots ms _) as [ps|e] eqn:S; [|discriminate]. cbn [bind] in E. injection E as <- <- <-. cbn [fst snd].
    split; [reflexivity|]. apply subplots_inv in S. destruct S as [NE F].
    assert (F' : Forall2 (fun q p => bp_legend p = is_last (0 + length ms) (fst q) /\ bars_of ts (@OfMetric D M T) (v d (snd q)) show (bp_series p) /\ centred (length ts) classes (bp_ticks p)) (numbered ms) ps).
    { eapply forall2_impl; [|exact F]. intros (i, m) p Q. cbn [fst snd] in *. destruct (y_limit all) as [y|e]; [|discriminate]. injection Q as <-. split; [reflexivity|]. split; [|apply ticks_centred, nonzero_length; assumption].
      apply (series_ok D M T T ts OfMetric (v d m)). apply nonzero_length. exact Zt. }
    split.
    + apply (numbered_last M _ _ ms ps 0); [apply nonzero_length; exact Zm|]. eapply forall2_impl; [|exact F']. intros q p Q. apply Q.
    + eapply forall2_impl; [|apply (forall2_numbered _ _ (fun _ m p => bars_of ts (@OfMetric D M T) (v d m) show (bp_series p) /\ centred (length ts) classes (bp_ticks p)) ms ps 0)].
      * intros m p (_ & Q). exact Q.
      * eapply forall2_impl; [|exact F']. intros q p Q. apply Q.
Qed.
End Bars.

(** Where bars stand *)
Lemma bars_apart : forall n s g show v b s' g' show' v' b', (1 <= n)%nat -> (s < n)%nat -> (s' < n)%nat -> bar_of n s g show v b -> bar_of n s' g' show' v' b' ->
  (b_left b < b_right b)%Q /\ ((g < g')%nat \/ (g = g' /\ (s < s')%nat) -> (b_right b <= b_left b')%Q) /\ ((g < g')%nat -> (b_right b + (5 # 100) <= b_left b')%Q).
Proof.
  intros n s g show v b s' g' show' v' b' Hn Hs Hs' (L & R & _) (L' & R' & _). set (c := inject_Z (Z.of_nat n)) in *.
  assert (C : (1 <= c)%Q) by (unfold c; change 1%Q with (inject_Z 1); rewrite <- Zle_Qle; lia).
  set (w := ((95 # 100) / c)%Q) in *. assert (W : (c * w == 95 # 100)%Q) by (unfold w; field; lra). assert (W0 : (0 < w)%Q). { unfold w. apply Qlt_shift_div_l; lra. }
  assert (S1 : (inject_Z (Z.of_nat s) + 1 <= c)%Q). { unfold c. change 1%Q with (inject_Z 1). rewrite <- inject_Z_plus, <- Zle_Qle. lia. }
  assert (S0 : (0 <= inject_Z (Z.of_nat s'))%Q) by (change 0%Q with (inject_Z 0); rewrite <- Zle_Qle; lia).
  assert (M1 : ((inject_Z (Z.of_nat s) + 1) * w <= c * w)%Q) by (apply Qmult_le_compat_r; lra). assert (M0 : (0 <= inject_Z (Z.of_nat s') * w)%Q) by (apply Qmult_le_0_compat; lra).
  assert (GAP : (g < g')%nat -> (b_right b + (5 # 100) <= b_left b')%Q).
  { intros Hg. assert (G : (inject_Z (Z.of_nat g) + 1 <= inject_Z (Z.of_nat g'))%Q). { change 1%Q with (inject_Z 1). rewrite <- inject_Z_plus, <- Zle_Qle. lia. } rewrite R, L, L'. lra. }
  split; [lra|]. split; [|exact GAP]. intros [Hg|[-> Hss]].
  - specialize (GAP Hg). lra.
  - assert (S2 : (inject_Z (Z.of_nat s) + 1 <= inject_Z (Z.of_nat s'))%Q). { change 1%Q with (inject_Z 1). rewrite <- inject_Z_plus, <- Zle_Qle. lia. }
    assert (M2 : ((inject_Z (Z.of_nat s) + 1) * w <= inject_Z (Z.of_nat s') * w)%Q) by (apply Qmult_le_compat_r; lra). rewrite R, L, L'. lra.
Qed.
Lemma tick_in_the_middle : forall n groups ticks g show show' v v' b b' t, (1 <= n)%nat -> centred n groups ticks -> bar_of n 0 g show v b -> bar_of n (n - 1) g show' v' b' -> nth_error ticks g = Some t ->
  (t == (b_left b + b_right b') / 2)%Q.
Proof.
  intros n groups ticks g show show' v v' b b' t Hn (_ & HC) (L & R & _) (L' & R' & _) Ht. rewrite (HC g t Ht). cbv zeta. set (c := inject_Z (Z.of_nat n)) in *.
  assert (C : (1 <= c)%Q) by (unfold c; change 1%Q with (inject_Z 1); rewrite <- Zle_Qle; lia).
  assert (N1 : (inject_Z (Z.of_nat (n - 1)) == c - 1)%Q). { rewrite Nat2Z.inj_sub by exact Hn. unfold Z.sub, c. rewrite inject_Z_plus. reflexivity. }
  rewrite R', L', L, N1. change (inject_Z (Z.of_nat 0)) with 0%Q. field. lra.
Qed.

(** The confusion matrix *)
Lemma is_log_scale_ok : forall cells, (2 <= length cells)%nat -> Forall (fun c => 0 <= c) cells ->
  exists b, is_log_scale cells = Ok b /\ (b = true <-> exists x rest, Permutation cells (x :: rest) /\ forall y, In y rest -> 2 * y < x).
Proof.
  intros cells L P. unfold is_log_scale. pose proof (isort_perm Z.leb cells) as HP.
  assert (SS : StronglySorted (fun a b => (a <=? b) = true) (isort Z.leb cells)). { apply isort_sorted; intros; rewrite ?Z.leb_le in *; lia. }
  set (l := isort Z.leb cells) in *. assert (HL : length l = length cells) by (apply Permutation_length; exact HP).
  destruct (rev l) as [|a [|b r]] eqn:E; try (apply (f_equal (@length Z)) in E; rewrite rev_length in E; cbn [length] in E; lia). cbn [nth_error of_option bind].
  assert (El : l = rev r ++ [b; a]). { rewrite <- (rev_involutive l), E. cbn [rev]. rewrite <- app_assoc. reflexivity. }
  assert (HB : forall y, In y (rev r) -> y <= b /\ y <= a).
  { rewrite El in SS. clear - SS. induction (rev r) as [|z m IH]; intros y Hy; [contradiction|]. cbn [app] in SS. inversion SS as [|? ? S1 S2]; subst. rewrite Forall_forall in S2. destruct Hy as [->|Hy]; [|auto].
    split; apply Z.leb_le, S2; apply in_or_app; right; [left; reflexivity|right; left; reflexivity]. }
  assert (HBA : b <= a). { rewrite El in SS. clear - SS. induction (rev r) as [|z m IH]; cbn [app] in SS; inversion SS as [|? ? S1 S2]; subst; [|auto]. rewrite Forall_forall in S2. apply Z.leb_le, S2. left. reflexivity. }
  assert (HPl : Permutation cells (a :: b :: rev r)). { rewrite <- HP, El. rewrite Permutation_app_comm. cbn [app]. apply perm_swap. }
  assert (P0 : 0 <= b /\ 0 <= a). { rewrite Forall_forall in P. split; apply P; apply (Permutation_in _ (Permutation_sym HPl)); [right; left|left]; reflexivity. }
  eexists. split; [reflexivity|].
  assert (EQ : (if b =? 0 then 0 <? a else 2 * b <? a) = (2 * b <? a)). { destruct (Z.eqb_spec b 0) as [->|]; reflexivity. } rewrite EQ, Z.ltb_lt. split.
  - intros H. exists a, (b :: rev r). split; [exact HPl|]. intros y [<-|Hy]; [exact H|]. apply HB in Hy. lia.
  - intros (x & rest & Hx & Hr). pose proof (Permutation_trans (Permutation_sym HPl) Hx) as HQ.
    assert (Ix : In x (a :: b :: rev r)) by (apply (Permutation_in _ (Permutation_sym HQ)); left; reflexivity).
    destruct (Z.eq_dec x a) as [->|Nx].
    + apply Hr. apply Permutation_cons_inv in HQ. apply (Permutation_in _ HQ). left. reflexivity.
    + exfalso. assert (Ia : In a rest). { assert (I : In a (x :: rest)) by (apply (Permutation_in _ HQ); left; reflexivity). destruct I as [I|I]; [congruence|exact I]. }
      apply Hr in Ia. destruct Ix as [Ix|[Ix|Ix]]; [congruence|subst; lia|]. apply HB in Ix. lia.
Qed.

Lemma confusion_ok : forall (D M : Type) (ds : list D) (ms : list M) v figs, plot_rank_confusion ds ms v = Ok figs ->
  Forall2 (fun d fig => fst fig = d /\ Forall2 (fun m p => fst p = m /\ is_log_scale (concat (v d m)) = Ok (snd p)) ms (snd fig)) ds figs.
Proof.
  intros D M ds ms v figs H. apply mapM_inv in H. eapply forall2_impl; [|exact H]. intros d (t, panels) E. cbn beta in E. destruct (subplots ms _) as [ps|e] eqn:S; [|discriminate]. cbn [bind] in E. injection E as <- <-. cbn [fst snd]. split; [reflexivity|].
  apply subplots_inv in S. destruct S as [_ F]. eapply forall2_impl; [|apply (forall2_numbered _ _ (fun _ m p => fst p = m /\ is_log_scale (concat (v d m)) = Ok (snd p)) ms ps 0)].
  - intros m p (_ & Q). exact Q.
  - eapply forall2_impl; [|exact F]. intros (i, m) p Q. cbn [fst snd] in *. destruct (is_log_scale _) as [lg|e]; [|discriminate]. injection Q as <-. split; reflexivity.
Qed.
Lemma graded_ok : forall (D M : Type) (ds : list D) (ms : list M) labels bins v figs, plot_graded_relevance ds ms labels bins v = Ok figs ->
  Forall2 (fun d fig => fst fig = d /\ in_last (map (fun p => match snd p with Some _ => true | None => false end) (snd fig)) /\
    Forall2 (fun m p => fst (fst p) = m /\ snd (fst p) = map (fun l => combine bins (v d m l)) labels /\ (snd p = None \/ snd p = Some labels)) ms (snd fig)) ds figs.
Proof.
  intros D M ds ms labels bins v figs H. apply mapM_inv in H. eapply forall2_impl; [|exact H]. intros d (t, panels) E. cbn beta in E. destruct (subplots ms _) as [ps|e] eqn:S; [|discriminate]. cbn [bind] in E. injection E as <- <-. cbn [fst snd]. split; [reflexivity|].
  apply subplots_inv in S. destruct S as [NE F]. split.
  - apply (numbered_last M _ _ ms ps 0); [destruct ms; [congruence|cbn [length]; lia]|]. eapply forall2_impl; [|exact F]. intros (i, m) p Q. cbn [fst snd] in *. injection Q as <-. cbn [snd plus]. destruct (is_last _ i); reflexivity.
  - eapply forall2_impl; [|apply (forall2_numbered _ _ (fun _ m p => fst (fst p) = m /\ snd (fst p) = map (fun l => combine bins (v d m l)) labels /\ (snd p = None \/ snd p = Some labels)) ms ps 0)].
    + intros m p (_ & Q). exact Q.
    + eapply forall2_impl; [|exact F]. intros (i, m) p Q. cbn [fst snd] in *. injection Q as <-. cbn [fst snd]. split; [reflexivity|]. split; [reflexivity|]. destruct (is_last _ i); [right|left]; reflexivity.
Qed.
Lemma contribution_ok : forall (D M T : Type) (ds : list D) (ms : list M) (v : D -> M -> list val) (figs : list (name D M T * list (panel D M T))), plot_average_contribution ds ms v = Ok figs ->
  Forall2 (fun d fig => fst fig = OfDataset d /\ Forall2 (fun m p => exists c, pn_curves p = [c] /\ c_name c = OfModel m /\ c_ring c = None /\ pn_legend p = true /\
    c_points c = map (fun iv => (inject_Z (Z.of_nat (fst iv)), snd iv)) (index (v d m))) ms (snd fig)) ds figs.
Proof.
  intros D M T ds ms v figs H. apply mapM_inv in H. eapply forall2_impl; [|exact H]. intros d (t, panels) E. cbn beta in E. destruct (subplots ms _) as [ps|e] eqn:S; [|discriminate]. cbn [bind] in E. injection E as <- <-. cbn [fst snd]. split; [reflexivity|].
  apply subplots_inv in S. destruct S as [NE F]. eapply forall2_impl; [|apply (forall2_numbered _ _ (fun _ m p => exists c, pn_curves p = [c] /\ c_name c = OfModel m /\ c_ring c = None /\ pn_legend p = true /\
    c_points c = map (fun iv => (inject_Z (Z.of_nat (fst iv)), snd iv)) (index (v d m))) ms ps 0)].
  - intros m p (_ & Q). exact Q.
  - eapply forall2_impl; [|exact F]. intros (i, m) p Q. cbn [fst snd] in *. injection Q as <-. cbn [fst snd pn_curves pn_legend]. eexists. split; [reflexivity|]. cbn [c_name c_ring c_points]. do 3 (split; [reflexivity|]). reflexivity.
Qed.
