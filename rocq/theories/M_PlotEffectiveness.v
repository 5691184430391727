(** Model of visualization/effectiveness.py: which bars, curves and matrices each figure holds.
    Values are rational numbers or NaN and arithmetic is exact.  An analysis is given by its
    coordinates (without repetitions) and its values; Matplotlib draws what it is given.  Colours,
    grids, sizes and the layout are not modelled. *)
From Coq Require Import List ZArith QArith Qround Bool.
From Verif Require Import Base.
Import ListNotations.
Local Open Scope Z_scope.

(** A number or NaN. *)
Definition val := option Q.
Inductive compare := CompareModels | CompareMetrics | CompareDatasets | CompareOther.

(** values.max(): NaN if there is one, an error on the empty array. *)
Definition vmax2 (a b : val) : val := match a, b with Some x, Some y => Some (if Qle_bool x y then y else x) | _, _ => None end.
Definition vmax (l : list val) : res val := match l with [] => Err ValueError | a :: r => Ok (fold_left vmax2 r a) end.
(** np.nanargmax: the first of the largest; an error if there is none. *)
Fixpoint nanargmax_from (best : option (nat * Q)) (i : nat) (l : list val) : option (nat * Q) :=
  match l with
  | [] => best
  | v :: r => nanargmax_from (match v, best with
                              | None, _ => best
                              | Some x, None => Some (i, x)
                              | Some x, Some (_, y) => if Qle_bool x y then best else Some (i, x)
                              end) (S i) r
  end.
Definition nanargmax (l : list val) : res nat := match nanargmax_from None 0 l with Some (i, _) => Ok i | None => Err ValueError end.

Section Plots.
(** Labels of the coordinates: data sets, models, metrics. *)
Context {D M T : Type}.
Inductive name := OfDataset (d : D) | OfModel (m : M) | OfMetric (t : T) | NoName.

(** A bar: edges, height and the number written above it, if any. *)
Record bar := mkBar { b_left : Q; b_right : Q; b_height : val; b_text : option (Q * val) }.
(** Bars of one colour with their name in the legend. *)
Record bars := mkBars { bs_name : name; bs_bars : list bar }.
Record bar_panel := mkBarPanel { bp_label : name; bp_series : list bars; bp_ticks : list Q; bp_ylim : Q; bp_legend : bool }.
(** A curve: its name in the legend, its points, and the ring around its maximum. *)
Record curve := mkCurve { c_name : name; c_points : list (Q * val); c_ring : option (Q * val) }.
Record panel := mkPanel { pn_label : name; pn_curves : list curve; pn_legend : bool; pn_xlabel : name }.

Definition max_width : Q := 95 # 100.
(** axes.bar(ind + s * width, values, width, align="center"), with text if [show]. *)
Definition bar_series (n : nat) (s : nat) (show : bool) (values : list val) : list bar :=
  let width := (max_width / inject_Z (Z.of_nat n))%Q in
  map (fun p => let x := (inject_Z (Z.of_nat (fst p)) + inject_Z (Z.of_nat s) * width)%Q in
                mkBar (x - width / 2)%Q (x + width / 2)%Q (snd p) (if show then Some (x, snd p) else None))
      (combine (seq 0 (length values)) values).
(** ind - width/2. + max_width / 2. *)
Definition ticks_of (n groups : nat) : list Q :=
  map (fun g => inject_Z (Z.of_nat g) - (max_width / inject_Z (Z.of_nat n)) / 2 + max_width / 2)%Q (seq 0 groups).
(** y_max = np.ceil(max*1.4*10.)/10.; NaN is refused by set_ylim. *)
Definition y_limit (all : list val) : res Q :=
  do m <- vmax all; match m with Some x => Ok (inject_Z (Qceiling (x * (14 # 10) * 10)) / 10)%Q | None => Err ValueError end.
Definition is_last (n i : nat) : bool := (S i =? n)%nat.
Definition numbered {A} (l : list A) : list (nat * A) := combine (seq 0 (length l)) l.

(** plot_model_performance, 27-110; [v d m t] is the score.  Dividing by no models or metrics raises. *)
Definition plot_model_performance (ds : list D) (ms : list M) (ts : list T) (v : D -> M -> T -> val) (c : compare) (show : bool) : res (list bar_panel) :=
  let all := flat_map (fun d => flat_map (fun m => map (v d m) ts) ms) ds in
  match c with
  | CompareModels =>
      mapM (fun d =>
        if (length ms =? 0)%nat then Err ZeroDivisionError else
        let series := map (fun im => mkBars (OfModel (snd im)) (bar_series (length ms) (fst im) show (map (v d (snd im)) ts))) (numbered ms) in
        do y <- y_limit all; Ok (mkBarPanel (OfDataset d) series (ticks_of (length ms) (length ts)) y true)) ds
  | CompareMetrics =>
      mapM (fun d =>
        if (length ts =? 0)%nat then Err ZeroDivisionError else
        let series := map (fun it => mkBars (OfMetric (snd it)) (bar_series (length ts) (fst it) show (map (fun m => v d m (snd it)) ms))) (numbered ts) in
        do y <- y_limit all; Ok (mkBarPanel (OfDataset d) series (ticks_of (length ts) (length ms)) y true)) ds
  | _ => Err RuntimeError
  end.

(** A figure: its title and its panels, from the top.  plt.subplots refuses 0 panels. *)
Definition subplots {A B} (l : list A) (f : nat -> A -> res B) : res (list B) :=
  if (length l =? 0)%nat then Err ValueError else mapM (fun p => f (fst p) (snd p)) (numbered l).

(** The curve of a series over the numbers of trees, with the ring: 150-157. *)
Definition ringed (nm : name) (ks : list Q) (values : list val) : res curve :=
  do i <- nanargmax values;
  do k <- of_option IndexError (nth_error ks i);
  do x <- of_option IndexError (nth_error values i);
  Ok (mkCurve nm (combine ks values) (Some (k, x))).
(** plot_tree_wise_performance, 113-226. *)
Definition plot_tree_wise (ds : list D) (ms : list M) (ts : list T) (ks : list Q) (v : D -> M -> T -> list val) (c : compare) : res (list (name * list panel)) :=
  match c with
  | CompareMetrics =>
      mapM (fun d =>
        do panels <- subplots ms (fun i m =>
          do curves <- mapM (fun t => ringed (OfMetric t) ks (v d m t)) ts;
          Ok (mkPanel (OfModel m) curves (is_last (length ms) i) NoName));
        Ok (OfDataset d, panels)) ds
  | CompareModels =>
      mapM (fun d =>
        do panels <- subplots ts (fun j t =>
          do curves <- mapM (fun m => ringed (OfModel m) ks (v d m t)) ms;
          Ok (mkPanel (OfMetric t) curves (is_last (length ts) j) NoName));
        Ok (OfDataset d, panels)) ds
  | CompareDatasets =>
      mapM (fun m =>
        do panels <- subplots ts (fun j t =>
          do curves <- mapM (fun d => ringed (OfDataset d) ks (v d m t)) ds;
          Ok (mkPanel (OfMetric t) curves (is_last (length ts) j) NoName));
        Ok (OfModel m, panels)) ms
  | CompareOther => Err RuntimeError
  end.

(** plot_tree_wise_average_contribution, 229-263: the points are numbered from 0. *)
Definition plot_average_contribution (ds : list D) (ms : list M) (v : D -> M -> list val) : res (list (name * list panel)) :=
  mapM (fun d =>
    do panels <- subplots ms (fun i m =>
      Ok (mkPanel NoName [mkCurve (OfModel m) (map (fun p => (inject_Z (Z.of_nat (fst p)), snd p)) (numbered (v d m))) None] true NoName));
    Ok (OfDataset d, panels)) ds.

(** plot_query_wise_performance, 266-339: percentages over the bins.  Only the last panel has a
    label below it. *)
Definition percent (v : val) : val := option_map (fun x => x * 100)%Q v.
Definition plot_query_wise (ds : list D) (ms : list M) (ts : list T) (bins : list Q) (v : D -> M -> T -> list val) (c : compare) : res (list (name * list panel)) :=
  match c with
  | CompareMetrics =>
      mapM (fun d =>
        do panels <- subplots ms (fun i m =>
          Ok (mkPanel NoName (map (fun t => mkCurve (OfMetric t) (combine bins (map percent (v d m t))) None) ts) (is_last (length ms) i) NoName));
        Ok (OfDataset d, panels)) ds
  | CompareModels =>
      mapM (fun d =>
        do panels <- subplots ts (fun j t =>
          Ok (mkPanel NoName (map (fun m => mkCurve (OfModel m) (combine bins (map percent (v d m t))) None) ms) (is_last (length ts) j)
                (if is_last (length ts) j then OfMetric t else NoName)));
        Ok (OfDataset d, panels)) ds
  | _ => Err RuntimeError
  end.

(** plot_query_class_performance, 459-573: a figure has its title (with compare="metrics" also the
    name of the model the loop ended with) and a panel of bars for each model or metric. *)
Definition plot_query_class (ds : list D) (ms : list M) (ts : list T) (classes : nat) (v : D -> M -> T -> list val) (c : compare) (show : bool) : res (list (name * name * list bar_panel)) :=
  let all := flat_map (fun d => flat_map (fun m => flat_map (v d m) ts) ms) ds in
  match c with
  | CompareMetrics =>
      mapM (fun d =>
        if (length ms =? 0)%nat then Err ValueError else
        if (length ts =? 0)%nat then Err ZeroDivisionError else
        do panels <- subplots ms (fun i m =>
          let series := map (fun jt => mkBars (OfMetric (snd jt)) (bar_series (length ts) (fst jt) show (v d m (snd jt)))) (numbered ts) in
          do y <- y_limit all; Ok (mkBarPanel NoName series (ticks_of (length ts) classes) y (is_last (length ms) i)));
        Ok (OfDataset d, last (map OfModel ms) NoName, panels)) ds
  | CompareModels =>
      mapM (fun d =>
        if (length ts =? 0)%nat then Err ValueError else
        if (length ms =? 0)%nat then Err ZeroDivisionError else
        do panels <- subplots ts (fun i t =>
          let series := map (fun jm => mkBars (OfModel (snd jm)) (bar_series (length ms) (fst jm) show (v d (snd jm) t))) (numbered ms) in
          do y <- y_limit all; Ok (mkBarPanel (OfMetric t) series (ticks_of (length ms) classes) y (is_last (length ts) i)));
        Ok (OfDataset d, NoName, panels)) ds
  | _ => Err RuntimeError
  end.
End Plots.
Arguments name : clear implicits.
Arguments bars : clear implicits. Arguments bar_panel : clear implicits. Arguments curve : clear implicits. Arguments panel : clear implicits.

(** is_log_scale_matrix, 384-414: the counts are sorted; x / 0 is infinite for x > 0, NaN for 0. *)
Definition is_log_scale (cells : list Z) : res bool :=
  let flat := isort Z.leb cells in
  do a <- of_option IndexError (nth_error (rev flat) 0);
  do b <- of_option IndexError (nth_error (rev flat) 1);
  Ok (if b =? 0 then 0 <? a else 2 * b <? a).
(** plot_rank_confusion_matrix, 417-456: a panel for each model, its matrix drawn as it is or with
    logarithms. *)
Definition plot_rank_confusion {D M} (ds : list D) (ms : list M) (v : D -> M -> list (list Z)) : res (list (D * list (M * bool))) :=
  mapM (fun d => do panels <- subplots ms (fun _ m => do lg <- is_log_scale (concat (v d m)); Ok (m, lg)); Ok (d, panels)) ds.
(** plot_document_graded_relevance, 342-381: a curve for each label, named in the legend of the last
    panel. *)
Definition plot_graded_relevance {D M} (ds : list D) (ms : list M) (labels : list Z) (bins : list Q) (v : D -> M -> Z -> list val) : res (list (D * list (M * list (list (Q * val)) * option (list Z)))) :=
  mapM (fun d => do panels <- subplots ms (fun i m => Ok (m, map (fun l => combine bins (v d m l)) labels, if is_last (length ms) i then Some labels else None)); Ok (d, panels)) ds.
