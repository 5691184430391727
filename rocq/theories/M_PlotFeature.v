(** Model of visualization/feature.py: the bars, ticks and labels of plot_feature_importance and the
    ticks of align_y_axis.  Importances are rational numbers (no NaN, no infinity) and arithmetic is
    exact; colours, legend and grid are not modelled. *)
From Coq Require Import Ascii String List ZArith QArith Qround Bool.
From Verif Require Import Base M_Text.
Import ListNotations.
Local Open Scope Z_scope.

Inductive sort_by := ByGain | ByCount | ByOther.
(** A bar: left edge, right edge, height. *)
Record bar := mkBar { b_left : Q; b_right : Q; b_height : Q }.
Record picture := mkPicture {
  p_importance : list bar; p_count : list bar; p_ticks : list Q; p_labels : list text;
  p_left : Q; p_right : Q; p_title : text; p_step : Q }.

Definition bar_width : Q := 35 # 100.
(** ax.bar(x, height, bar_width, align='center'): the arguments are broadcast. *)
Definition centered (x h : Q) : bar := mkBar (x - bar_width / 2)%Q (x + bar_width / 2)%Q h.
Definition bars (xs hs : list Q) : res (list bar) :=
  if (length xs =? length hs)%nat then Ok (map (fun p => centered (fst p) (snd p)) (combine xs hs))
  else match hs with
       | [h] => Ok (map (fun x => centered x h) xs)
       | _ => match xs with [x] => Ok (map (centered x) hs) | _ => Err ValueError end
       end.
(** "%16s" % f *)
Definition pad16 (t : text) : text := repeat " "%char (16 - length t) ++ t.
(** top_importances.max() *)
Definition q_max (l : list Q) : res Q :=
  match l with [] => Err ValueError | a :: r => Ok (fold_left (fun m x => if Qle_bool m x then x else m) r a) end.

Section PlotFeature.
(** np.argsort (quicksort: the order of equal values is left open), of numbers and of counts. *)
Variables (argsort_q : list Q -> list nat) (argsort_z : list Z -> list nat).
(** Does set_xticklabels check the number of labels (Matplotlib 3.3 and later)? *)
Variable strict_labels : bool.

(** Lines 20-117.  [max_features]: [None] stands for all that is not an int of Python.  The counts
    are stored as numbers and cast to uint16 (line 48). *)
Definition plot_feature_importance (importance : list Q) (count : list Z) (max_features : option Z) (by_ : sort_by) (names : option (list text)) : res picture :=
  let count := map (wrap_u 16) count in
  do sorted <- match by_ with
               | ByGain => Ok (rev (argsort_q importance), lit "Importance")
               | ByCount => Ok (rev (argsort_z count), lit "Count")
               | ByOther => Err RuntimeError
               end;
  let idx := match max_features with Some m => slice_to m (fst sorted) | None => fst sorted end in
  let m := match max_features with Some m => m | None => Z.of_nat (length importance) end in
  do top_importances <- mapM (fun i => of_option IndexError (nth_error importance i)) idx;
  do top_counts <- mapM (fun i => of_option IndexError (nth_error count i)) idx;
  let index := map inject_Z (zrange 0 m) in
  do bar1 <- bars index top_importances;
  do bar2 <- bars (map (fun x => x + bar_width)%Q index) (map inject_Z top_counts);
  do labels <- match names with
               | Some names => do l <- mapM (fun i => of_option IndexError (nth_error names i)) idx; Ok (map pad16 l)
               | None => Ok (map (fun i => show_Z (Z.of_nat i + 1)) idx)
               end;
  let ticks := map (fun x => match names with Some _ => x + bar_width / 2 + (15 # 100) | None => x + bar_width / 2 end)%Q index in
  do _ <- (if strict_labels && negb (length ticks =? length labels)%nat && negb (length labels =? 0)%nat then Err ValueError else Ok tt);
  do top <- q_max top_importances;
  Ok (mkPicture bar1 bar2 ticks labels (- bar_width / 2 - bar_width)%Q (inject_Z (m - 1) + bar_width * 5 / 2)%Q
        (lit "Top-k Features by " ++ snd sorted) (inject_Z (Qceiling (top * 10)) / 100)%Q).
End PlotFeature.

(** x % f (Python; not a number when f is 0). *)
Definition q_mod (x f : Q) : option Q := if Qeq_bool f 0 then None else Some (x - f * inject_Z (Qfloor (x / f)))%Q.
(** np.linspace(a, b, n), n >= 2 *)
Definition linspace (a b : Q) (n : nat) : list Q := map (fun j => a + inject_Z (Z.of_nat j) * ((b - a) / inject_Z (Z.of_nat n - 1)))%Q (seq 0 n).
(** Lines 120-138, one of the two axes; [lo] and [hi] are its bounds. *)
Definition aligned_ticks (lo hi minres : Q) (num_ticks : nat) : option (list Q) :=
  let factor := (minres * inject_Z (Z.of_nat num_ticks - 1))%Q in
  match q_mod (hi - lo) factor with
  | None => None
  | Some a => match q_mod (factor - a) factor with None => None | Some b => Some (linspace lo (hi + b) num_ticks) end
  end.
