(** Model of plot_shape (visualization/topological.py 30-144): the matrix of colours [z] given to
    pcolormesh.  Axes, grid, labels and colour map are not modelled; the number of levels is
    assumed to be at least one (max_level >= 0). *)
From Coq Require Import List ZArith Bool.
From Verif Require Import Base Num M_Dataset M_Ensemble M_Topology.
Import ListNotations.
Local Open Scope Z_scope.

Section PlotShape.
Context {N : num}.

(** The sparse matrix of the average shape: its shape (one more than the largest coordinates)
    and its cells (0 where nothing is stored). *)
Definition rows_of (ts : list (Z * Z * N)) : Z := fold_left Z.max (map (fun p => fst (fst p)) ts) (-1) + 1.
Definition cols_of (ts : list (Z * Z * N)) : Z := fold_left Z.max (map (fun p => snd (fst p)) ts) (-1) + 1.
Definition cell_of (ts : list (Z * Z * N)) (row col : Z) : N :=
  match find (fun p => (fst (fst p) =? row) && (snd (fst p) =? col)) ts with Some p => snd p | None => nzero end.

(** Lines 46-50: max_levels, max_nodes. *)
Definition shape_levels (ts : list (Z * Z * N)) (max_level : Z) : Z := Z.min (rows_of ts) (max_level + 1).
Definition shape_nodes (levels : Z) : Z := Z.max 128 (2 ^ levels).

(** z[start:end, level] = v; the rows of [z] are the angles. *)
Definition paint (start stop : Z) (level : nat) (v : N) (z : list (list N)) : list (list N) :=
  map (fun p => if (start <=? Z.of_nat (fst p)) && (Z.of_nat (fst p) <? stop) then upd (snd p) level v else snd p) (combine (seq 0 (length z)) z).

(** Lines 97-108. *)
Definition plot_shape (ts : list (Z * Z * N)) (max_level : Z) : list (list N) :=
  let max_levels := shape_levels ts max_level in
  let max_nodes := shape_nodes max_levels in
  let z := repeat (repeat nzero (Z.to_nat (max_levels + 1))) (Z.to_nat (max_nodes + 1)) in
  fold_left (fun z level =>
      let num_nodes := 2 ^ level in
      let num_same_color := max_nodes / num_nodes in
      fold_left (fun z node =>
          let start_idx := num_same_color * node in
          let end_idx := start_idx + num_same_color in
          if node <? cols_of ts then paint start_idx end_idx (Z.to_nat level) (cell_of ts level node) z else z)
        (zrange 0 num_nodes) z)
    (zrange 0 max_levels) z.
End PlotShape.
