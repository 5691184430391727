(** Figures: what a reader must find in them. *)
From Coq Require Import List ZArith QArith Bool.
From Verif Require Import Base M_PlotEffectiveness.
Import ListNotations.

(** Position [i] holds the largest of the numbers, and the first such. *)
Definition first_largest (l : list val) (i : nat) (x : Q) : Prop :=
  nth_error l i = Some (Some x) /\ (forall j y, nth_error l j = Some (Some y) -> (y <= x)%Q) /\ (forall j y, (j < i)%nat -> nth_error l j = Some (Some y) -> (y < x)%Q).
Definition has_number (l : list val) : Prop := exists x, In (Some x) l.
(** The curve through the values, with a ring around its first maximum. *)
Definition ringed_curve {D M T} (nm : name D M T) (ks : list Q) (values : list val) (c : curve D M T) : Prop :=
  c_name c = nm /\ c_points c = combine ks values /\ exists i k x, c_ring c = Some (k, Some x) /\ nth_error ks i = Some k /\ first_largest values i x.
(** The legend is in the last panel. *)
Definition in_last (l : list bool) : Prop := exists n, l = repeat false n ++ [true].
(** Bars of a series of [n] series: those of group [g] share the space from g - w/2 to g - w/2 + 0.95. *)
Definition bar_of (n s g : nat) (show : bool) (v : val) (b : bar) : Prop :=
  let w := ((95 # 100) / inject_Z (Z.of_nat n))%Q in
  (b_left b == inject_Z (Z.of_nat g) - w / 2 + inject_Z (Z.of_nat s) * w)%Q /\ (b_right b == b_left b + w)%Q /\ b_height b = v /\
  match b_text b with Some (x, t) => show = true /\ t = v /\ (x == (b_left b + b_right b) / 2)%Q | None => show = false end.
Definition index {A} (l : list A) : list (nat * A) := combine (seq 0 (length l)) l.
(** Each of the named series has its bars, in order. *)
Definition bars_of {D M T X} (xs : list X) (nm : X -> name D M T) (v : X -> list val) (show : bool) (l : list (bars D M T)) : Prop :=
  Forall2 (fun ix s => bs_name s = nm (snd ix) /\ Forall2 (fun gv b => bar_of (length xs) (fst ix) (fst gv) show (snd gv) b) (index (v (snd ix))) (bs_bars s)) (index xs) l.
(** One tick for each group, in the middle of the space of its bars. *)
Definition centred (n groups : nat) (ticks : list Q) : Prop :=
  length ticks = groups /\ forall g t, nth_error ticks g = Some t ->
    let first := (inject_Z (Z.of_nat g) - ((95 # 100) / inject_Z (Z.of_nat n)) / 2)%Q in (t == (first + (first + (95 # 100))) / 2)%Q.
(** The numbers fit below the limit, with room for the text. *)
Definition fits (all : list val) (y : Q) : Prop := forall x, In (Some x) all -> (x * (14 # 10) <= y)%Q.
(** One figure for each of [xs], a panel for each of [ys], a curve for each of [zs], nothing else. *)
Definition figures {D M T X Y Z : Type} (xs : list X) (ys : list Y) (zs : list Z) (nx : X -> name D M T) (ny : Y -> name D M T) (is_curve : X -> Y -> Z -> curve D M T -> Prop)
    (figs : list (name D M T * list (panel D M T))) : Prop :=
  Forall2 (fun x fig => fst fig = nx x /\ in_last (map (@pn_legend D M T) (snd fig)) /\
    Forall2 (fun y p => pn_label p = ny y /\ Forall2 (fun z c => is_curve x y z c) zs (pn_curves p)) ys (snd fig)) xs figs.
(** The curve of the percentages. *)
Definition percent_curve {D M T} (nm : name D M T) (bins : list Q) (values : list val) (c : curve D M T) : Prop :=
  c_name c = nm /\ c_ring c = None /\ length (c_points c) = Nat.min (length bins) (length values) /\
  forall i x y, nth_error bins i = Some x -> nth_error values i = Some y -> exists z, nth_error (c_points c) i = Some (x, z) /\
    match y, z with Some a, Some b => (b == 100 * a)%Q | None, None => True | _, _ => False end.
