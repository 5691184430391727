(** C82: the figures of the effectiveness analyses show the values of the analysis. *)
From Coq Require Import List ZArith QArith Qround Lia Lqa Bool Permutation.
From Verif Require Import Base M_PlotEffectiveness S_PlotEffectiveness L_PlotEffectiveness L_PlotEffectiveness2.
Import ListNotations.
Local Open Scope Z_scope.

(** Tree-wise performance: a figure, a panel and a curve for each triple, each with a ring around its
    first maximum, the legend in the last panel of each figure. *)
Theorem C82_tree_wise : forall (D M T : Type) ds ms ts ks (v : D -> M -> T -> list val) c figs, plot_tree_wise ds ms ts ks v c = Ok figs ->
  match c with
  | CompareMetrics => figures ds ms ts OfDataset OfModel (fun d m t => ringed_curve (OfMetric t) ks (v d m t)) figs
  | CompareModels => figures ds ts ms OfDataset OfMetric (fun d t m => ringed_curve (OfModel m) ks (v d m t)) figs
  | CompareDatasets => figures ms ts ds OfModel OfMetric (fun m t d => ringed_curve (OfDataset d) ks (v d m t)) figs
  | CompareOther => False
  end.
Proof. exact (@tree_wise_ok). Qed.
Print Assumptions C82_tree_wise.
(** It succeeds when each curve has a number, and only then. *)
Theorem C82_tree_wise_total : forall (D M T : Type) ds ms ts ks (v : D -> M -> T -> list val) c, c <> CompareOther -> ms <> [] -> ts <> [] ->
  (forall d m t, In d ds -> In m ms -> In t ts -> length (v d m t) = length ks) ->
  ((exists figs, plot_tree_wise ds ms ts ks v c = Ok figs) <-> forall d m t, In d ds -> In m ms -> In t ts -> has_number (v d m t)).
Proof.
  intros D M T ds ms ts ks v c Hc Nm Nt L. split.
  - intros (figs & E) d m t Hd Hm Ht.
    assert (N : {has_number (v d m t)} + {~ has_number (v d m t)}).
    { clear. unfold has_number. induction (v d m t) as [|[x|] l IH].
      - right. intros (x & []).
      - left. exists x. left. reflexivity.
      - destruct IH as [H|H]; [left; destruct H as (x & H); exists x; right; exact H|]. right. intros (x & [C|C]); [discriminate|]. apply H. exists x. exact C. }
    destruct N as [N|N]; [exact N|]. destruct (tree_wise_nan ds ms ts ks v c d m t Hd Hm Ht N) as (e & Ee). congruence.
  - intros H. apply tree_wise_total; auto.
Qed.
Print Assumptions C82_tree_wise_total.
(** Model performance: the bars of each model (metric) in each group, the group's tick in the middle,
    every value below the top of the axis with two fifths of its height to spare. *)
Theorem C82_model_performance : forall (D M T : Type) ds ms ts (v : D -> M -> T -> val) c show figs, plot_model_performance ds ms ts v c show = Ok figs ->
  match c with
  | CompareModels => Forall2 (fun d p => bp_label p = OfDataset d /\ bars_of ms OfModel (fun m => map (v d m) ts) show (bp_series p) /\ centred (length ms) (length ts) (bp_ticks p)) ds figs
  | CompareMetrics => Forall2 (fun d p => bp_label p = OfDataset d /\ bars_of ts OfMetric (fun t => map (fun m => v d m t) ms) show (bp_series p) /\ centred (length ts) (length ms) (bp_ticks p)) ds figs
  | _ => False
  end /\ forall p d m t, In p figs -> In d ds -> In m ms -> In t ts -> exists x, v d m t = Some x /\ (x * (14 # 10) <= bp_ylim p)%Q.
Proof. exact (@model_performance_ok). Qed.
Print Assumptions C82_model_performance.
Theorem C82_model_performance_total : forall (D M T : Type) ds ms ts (v : D -> M -> T -> val) c show, c = CompareModels \/ c = CompareMetrics -> ms <> [] -> ts <> [] ->
  (forall d m t, In d ds -> In m ms -> In t ts -> v d m t <> None) -> exists figs, plot_model_performance ds ms ts v c show = Ok figs.
Proof. exact (@model_performance_total). Qed.
Print Assumptions C82_model_performance_total.
(** Query-class performance. *)
Theorem C82_query_class : forall (D M T : Type) ds ms ts classes (v : D -> M -> T -> list val) c show figs, plot_query_class ds ms ts classes v c show = Ok figs ->
  match c with
  | CompareMetrics => Forall2 (fun d fig => fst (fst fig) = OfDataset d /\ in_last (map (@bp_legend D M T) (snd fig)) /\
      Forall2 (fun m p => bars_of ts OfMetric (v d m) show (bp_series p) /\ centred (length ts) classes (bp_ticks p)) ms (snd fig)) ds figs
  | CompareModels => Forall2 (fun d fig => fst (fst fig) = OfDataset d /\ in_last (map (@bp_legend D M T) (snd fig)) /\
      Forall2 (fun t p => bp_label p = OfMetric t /\ bars_of ms OfModel (fun m => v d m t) show (bp_series p) /\ centred (length ms) classes (bp_ticks p)) ts (snd fig)) ds figs
  | _ => False
  end.
Proof. exact (@query_class_ok). Qed.
Print Assumptions C82_query_class.
(** Bars do not overlap, groups are apart, and a tick is in the middle of its group. *)
Theorem C82_bars_apart : forall n s g show v b s' g' show' v' b', (1 <= n)%nat -> (s < n)%nat -> (s' < n)%nat -> bar_of n s g show v b -> bar_of n s' g' show' v' b' ->
  (b_left b < b_right b)%Q /\ ((g < g')%nat \/ (g = g' /\ (s < s')%nat) -> (b_right b <= b_left b')%Q) /\ ((g < g')%nat -> (b_right b + (5 # 100) <= b_left b')%Q).
Proof. exact bars_apart. Qed.
Print Assumptions C82_bars_apart.
Theorem C82_tick_in_the_middle : forall n groups ticks g show show' v v' b b' t, (1 <= n)%nat -> centred n groups ticks -> bar_of n 0 g show v b -> bar_of n (n - 1) g show' v' b' -> nth_error ticks g = Some t ->
  (t == (b_left b + b_right b') / 2)%Q.
Proof. exact tick_in_the_middle. Qed.
Print Assumptions C82_tick_in_the_middle.
(** Query-wise performance: percentages over the bins. *)
Theorem C82_query_wise : forall (D M T : Type) ds ms ts bins (v : D -> M -> T -> list val) c figs, plot_query_wise ds ms ts bins v c = Ok figs ->
  match c with
  | CompareMetrics => figures ds ms ts OfDataset (fun _ => NoName) (fun d m t => percent_curve (OfMetric t) bins (v d m t)) figs
  | CompareModels => figures ds ts ms OfDataset (fun _ => NoName) (fun d t m => percent_curve (OfModel m) bins (v d m t)) figs
  | _ => False
  end.
Proof. exact (@query_wise_ok). Qed.
Print Assumptions C82_query_wise.
(** Average contribution: one curve for each data set and model, numbered from 0. *)
Theorem C82_average_contribution : forall (D M T : Type) (ds : list D) (ms : list M) (v : D -> M -> list val) (figs : list (name D M T * list (panel D M T))), plot_average_contribution ds ms v = Ok figs ->
  Forall2 (fun d fig => fst fig = OfDataset d /\ Forall2 (fun m p => exists c, pn_curves p = [c] /\ c_name c = OfModel m /\ c_ring c = None /\ pn_legend p = true /\
    c_points c = map (fun iv => (inject_Z (Z.of_nat (fst iv)), snd iv)) (index (v d m))) ms (snd fig)) ds figs.
Proof. exact contribution_ok. Qed.
Print Assumptions C82_average_contribution.
(** Graded relevance: a curve for each label. *)
Theorem C82_graded_relevance : forall (D M : Type) (ds : list D) (ms : list M) labels bins v figs, plot_graded_relevance ds ms labels bins v = Ok figs ->
  Forall2 (fun d fig => fst fig = d /\ in_last (map (fun p => match snd p with Some _ => true | None => false end) (snd fig)) /\
    Forall2 (fun m p => fst (fst p) = m /\ snd (fst p) = map (fun l => combine bins (v d m l)) labels /\ (snd p = None \/ snd p = Some labels)) ms (snd fig)) ds figs.
Proof. exact graded_ok. Qed.
Print Assumptions C82_graded_relevance.
(** Confusion matrix: logarithms exactly when one count is more than twice every other. *)
Theorem C82_confusion_matrix : forall (D M : Type) (ds : list D) (ms : list M) v figs, plot_rank_confusion ds ms v = Ok figs ->
  (forall d m, In d ds -> In m ms -> Forall (fun c => 0 <= c) (concat (v d m))) ->
  Forall2 (fun d fig => fst fig = d /\ Forall2 (fun m p => fst p = m /\
    (snd p = true <-> exists x rest, Permutation (concat (v d m)) (x :: rest) /\ forall y, In y rest -> 2 * y < x)) ms (snd fig)) ds figs.
Proof.
  intros D M ds ms v figs H P. apply confusion_ok in H.
  assert (G : forall d m b, In d ds -> In m ms -> is_log_scale (concat (v d m)) = Ok b -> (b = true <-> exists x rest, Permutation (concat (v d m)) (x :: rest) /\ forall y, In y rest -> 2 * y < x)).
  { intros d m b Hd Hm E. destruct (le_lt_dec 2 (length (concat (v d m)))) as [L|L].
    - destruct (is_log_scale_ok _ L (P d m Hd Hm)) as (b' & E' & Q). rewrite E in E'. injection E' as ->. exact Q.
    - exfalso. destruct (concat (v d m)) as [|a [|a' r]]; [discriminate|discriminate|cbn [length] in L; lia]. }
  clear P. revert G. induction H as [|d fig ds figs (E & F) H IH]; intros G; constructor.
  - split; [exact E|]. assert (G' : forall m b, In m ms -> is_log_scale (concat (v d m)) = Ok b -> (b = true <-> exists x rest, Permutation (concat (v d m)) (x :: rest) /\ forall y, In y rest -> 2 * y < x)) by (intros m b Hm; apply G; [left; reflexivity|exact Hm]).
    clear - F G'. induction F as [|m p ms ps (E & Q) F IH]; constructor; [split; [exact E|apply G'; [left; reflexivity|exact Q]]|]. apply IH. intros m' b Hm. apply G'. right. exact Hm.
  - apply IH. intros d' m b Hd Hm. apply G; [right; exact Hd|exact Hm].
Qed.
Print Assumptions C82_confusion_matrix.
(** Any other comparison is refused. *)
Theorem C82_wrong_comparison : forall (D M T : Type) (ds : list D) (ms : list M) (ts : list T) ks v v1 classes show,
  plot_tree_wise ds ms ts ks v CompareOther = Err RuntimeError /\
  forall c, c = CompareOther \/ c = CompareDatasets ->
    plot_model_performance ds ms ts v1 c show = Err RuntimeError /\ plot_query_wise ds ms ts ks v c = Err RuntimeError /\ plot_query_class ds ms ts classes v c show = Err RuntimeError.
Proof. intros. split; [reflexivity|]. intros c [->| ->]; repeat split. Qed.
Print Assumptions C82_wrong_comparison.

(** Two models and three metrics on one data set. *)
Definition ex (d m t : nat) : val := Some (inject_Z (Z.of_nat (m + 2 * t)) / 10)%Q.
Definition red_bar (b : bar) : Q * Q * val * option Q :=
  (Qreduction.Qred (b_left b), Qreduction.Qred (b_right b), option_map Qreduction.Qred (b_height b), option_map (fun t => Qreduction.Qred (fst t)) (b_text b)).
Definition red_panel {D M T} (p : bar_panel D M T) : list (name D M T * list (Q * Q * val * option Q)) * list Q * Q :=
  (map (fun s => (bs_name s, map red_bar (bs_bars s))) (bp_series p), map Qreduction.Qred (bp_ticks p), Qreduction.Qred (bp_ylim p)).
Example C82_example_bars :
  (do figs <- plot_model_performance [7%nat] [0%nat; 1%nat] [0%nat; 1%nat; 2%nat] ex CompareModels true; Ok (map red_panel figs)) =
  Ok [([(OfModel 0%nat, [(-19 # 80, 19 # 80, Some 0, Some 0); (61 # 80, 99 # 80, Some (1 # 5), Some 1); (141 # 80, 179 # 80, Some (2 # 5), Some 2)]);
        (OfModel 1%nat, [(19 # 80, 57 # 80, Some (1 # 10), Some (19 # 40)); (99 # 80, 137 # 80, Some (3 # 10), Some (59 # 40)); (179 # 80, 217 # 80, Some (1 # 2), Some (99 # 40))])],
       [19 # 80; 99 # 80; 179 # 80], 7 # 10)]%Q.
Proof. vm_compute. reflexivity. Qed.
Definition exk (d m t : nat) : list val :=
  match (m + t)%nat with O => [Some (1 # 2); None; Some (3 # 4); Some (3 # 4)] | S _ => [None; Some (1 # 3); Some (1 # 4); Some 0%Q] end.
Example C82_example_curves :
  (do figs <- plot_tree_wise [7%nat] [0%nat; 1%nat] [0%nat] [10; 20; 30; 40]%Q exk CompareMetrics;
   Ok (map (fun f => (fst f, map (fun p => (pn_label p, map (fun c => (c_name c, c_ring c)) (pn_curves p), pn_legend p)) (snd f))) figs)) =
  Ok [(OfDataset 7%nat, [(OfModel 0%nat, [(OfMetric 0%nat, Some (30%Q, Some (3 # 4)))], false); (OfModel 1%nat, [(OfMetric 0%nat, Some (20%Q, Some (1 # 3)))], true)])] /\
  (forall d m t, has_number (exk d m t)) /\ plot_tree_wise [7%nat] [0%nat] [0%nat] [10%Q] (fun _ _ _ => [None]) CompareModels = Err ValueError.
Proof.
  split; [vm_compute; reflexivity|]. split; [|reflexivity]. intros d m t. unfold has_number, exk. destruct (m + t)%nat; [exists (1 # 2)%Q; left; reflexivity|exists (1 # 3)%Q; right; left; reflexivity].
Qed.
Example C82_example_classes :
  (do figs <- plot_query_class [7%nat] [0%nat; 1%nat] [0%nat] 2 (fun _ m _ => [Some (1 # 2); Some (inject_Z (Z.of_nat m))]%Q) CompareModels false; Ok (map (fun f => (fst f, map red_panel (snd f))) figs)) =
  Ok [(OfDataset 7%nat, NoName, [([(OfModel 0%nat, [(-19 # 80, 19 # 80, Some (1 # 2), None); (61 # 80, 99 # 80, Some 0, None)]);
        (OfModel 1%nat, [(19 # 80, 57 # 80, Some (1 # 2), None); (99 # 80, 137 # 80, Some 1, None)])], [19 # 80; 99 # 80], 7 # 5)])]%Q.
Proof. vm_compute. reflexivity. Qed.
Example C82_example_percent :
  (do figs <- plot_query_wise [7%nat] [0%nat; 1%nat] [5%nat] [0; 1]%Q (fun _ m _ => [Some (1 # 4); if Nat.eqb m 0 then None else Some 1%Q]) CompareModels;
   Ok (map (fun f => (fst f, map (fun p => map (fun c => (c_name c, map (fun q => (fst q, option_map Qreduction.Qred (snd q))) (c_points c))) (pn_curves p)) (snd f))) figs)) =
  Ok [(OfDataset 7%nat, [[(OfModel 0%nat, [(0%Q, Some 25%Q); (1%Q, None)]); (OfModel 1%nat, [(0%Q, Some 25%Q); (1%Q, Some 100%Q)])]])].
Proof. vm_compute. reflexivity. Qed.
Example C82_example_contribution :
  (do figs <- @plot_average_contribution nat nat nat [7%nat] [3%nat] (fun _ _ => [Some (1 # 2); Some (1 # 8)]%Q); Ok (map (fun f => map (fun p => map (@c_points nat nat nat) (pn_curves p)) (snd f)) figs)) =
  Ok [[[[(0, Some (1 # 2)); (1, Some (1 # 8))]]]]%Q.
Proof. vm_compute. reflexivity. Qed.
Example C82_example_graded :
  plot_graded_relevance [7%nat] [1%nat; 2%nat] [0; 1] [5%Q] (fun _ _ l => [Some (inject_Z l)]) =
  Ok [(7%nat, [(1%nat, [[(5%Q, Some 0%Q)]; [(5%Q, Some 1%Q)]], None); (2%nat, [[(5%Q, Some 0%Q)]; [(5%Q, Some 1%Q)]], Some [0; 1])])].
Proof. vm_compute. reflexivity. Qed.
Example C82_example_confusion : plot_rank_confusion [7%nat] [1%nat; 2%nat] (fun _ m => if Nat.eqb m 1 then [[9; 4]; [0; 1]] else [[8; 4]; [0; 1]]) = Ok [(7%nat, [(1%nat, true); (2%nat, false)])].
Proof. vm_compute. reflexivity. Qed.

(** What does not hold.  The documentation says the matrix is rescaled if the largest count is at
    least twice the second; and a data set with one label gives an error. *)
Theorem C82_log_scale_refuted :
  (exists x rest, Forall (fun c => 0 <= c) (x :: rest) /\ (forall y, In y rest -> 2 * y <= x) /\ is_log_scale (x :: rest) = Ok false) /\
  (exists x, 0 < x /\ is_log_scale [x] = Err IndexError).
Proof.
  split; [exists 8, [4; 1]; split; [repeat constructor; lia|]; split; [intros y [<-|[<-|[]]]; lia|reflexivity]|]. exists 3. split; [lia|reflexivity].
Qed.
Print Assumptions C82_log_scale_refuted.
(** With the models compared, only the last panel of the query-wise figure says which metric it shows;
    with the metrics compared, no panel says which model. *)
Theorem C82_query_wise_names_refuted :
  (exists figs, plot_query_wise [7%nat] [0%nat] [5%nat; 6%nat] [0%Q] (fun _ _ _ => [Some 1%Q]) CompareModels = Ok figs /\
     map (fun f => map (fun p => (pn_label p, pn_xlabel p)) (snd f)) figs = [[(NoName, NoName); (NoName, OfMetric 6%nat)]]) /\
  (exists figs, plot_query_wise [7%nat] [0%nat; 1%nat] [5%nat] [0%Q] (fun _ _ _ => [Some 1%Q]) CompareMetrics = Ok figs /\
     map (fun f => map (fun p => (pn_label p, pn_xlabel p)) (snd f)) figs = [[(NoName, NoName); (NoName, NoName)]]).
Proof. split; eexists; (split; [vm_compute; reflexivity|reflexivity]). Qed.
Print Assumptions C82_query_wise_names_refuted.
(** With the metrics compared, the query-class figure of several models is entitled with the last. *)
Theorem C82_query_class_title : forall (D M T : Type) d m m' ms t ts classes (v : D -> M -> T -> list val) show figs,
  plot_query_class [d] (m :: ms ++ [m']) (t :: ts) classes v CompareMetrics show = Ok figs ->
  exists panels, figs = [(OfDataset d, OfModel m', panels)] /\ length panels = (2 + length ms)%nat /\ Forall (fun p => bp_label p = NoName) panels.
Proof.
  intros D M T d m m' ms t ts classes v show figs H. pose proof (query_class_ok _ _ _ _ _ _ _ _ H) as Q. cbn beta iota in Q. inversion Q as [|? fig ? ? (Q1 & _ & Q2) Q3]; subst. inversion Q3; subst.
  unfold plot_query_class in H. cbn [mapM] in H. replace (length (m :: ms ++ [m']) =? 0)%nat with false in H by reflexivity. replace (length (t :: ts) =? 0)%nat with false in H by reflexivity. cbv iota in H.
  destruct (subplots _ _) as [ps|e] eqn:S; [|discriminate]. cbn [bind] in H. injection H as <-. exists ps. cbn [fst snd] in *.
  assert (EL : last (map (@OfModel D M T) (m :: ms ++ [m'])) NoName = OfModel m').
  { rewrite app_comm_cons, map_app. cbn [map]. rewrite last_last. reflexivity. }
  split; [do 3 f_equal; exact EL|]. split.
  - assert (Q4 : length ps = length (m :: ms ++ [m'])) by (clear - Q2; induction Q2; cbn [length]; congruence). rewrite Q4. cbn [length]. rewrite app_length. cbn [length]. lia.
  - apply subplots_inv in S. destruct S as [_ F]. clear - F. induction F as [|q p l r E F IH]; constructor; [|exact IH]. destruct (y_limit _) as [y|e]; [|discriminate]. injection E as <-. reflexivity.
Qed.
Print Assumptions C82_query_class_title.
Example C82_title_example : (do figs <- plot_query_class [7%nat] [1%nat; 2%nat] [5%nat] 1 (fun _ _ _ => [Some 1%Q]) CompareMetrics false; Ok (map fst figs)) = Ok [(OfDataset 7%nat, OfModel 2%nat)].
Proof. vm_compute. reflexivity. Qed.
(** If no value is positive nothing is visible: the axis ends at 0 or below. *)
Theorem C82_no_height_refuted : exists figs p, plot_model_performance [7%nat] [0%nat] [0%nat] (fun _ _ _ => Some (-1 # 2)%Q) CompareModels false = Ok figs /\ In p figs /\ (bp_ylim p < 0)%Q /\
  exists figs' p', plot_model_performance [7%nat] [0%nat] [0%nat] (fun _ _ _ => Some 0%Q) CompareModels false = Ok figs' /\ In p' figs' /\ (bp_ylim p' == 0)%Q.
Proof.
  eexists. eexists. split; [vm_compute; reflexivity|]. split; [left; reflexivity|]. split; [vm_compute; reflexivity|]. eexists. eexists. split; [vm_compute; reflexivity|]. split; [left; reflexivity|vm_compute; reflexivity].
Qed.
Print Assumptions C82_no_height_refuted.
