(** Model of rankeval/analysis/_efficient_topological.pyx and topological.py.

    The iterations of the two parallel loops write to different cells; the first loop is
    run tree by tree in an arbitrary order, the second one is a map.  int variables hold node
    numbers and are not bounded; the counts are exact as float32 below 2^24. *)
From Coq Require Import List ZArith Bool.
From Verif Require Import Base Num M_Dataset M_Ensemble.
Import ListNotations.
Local Open Scope Z_scope.

(** _efficient_topological.pyx 109-126: most_significant_bit on a long long. *)
Definition msb_tests : list (Z * Z) :=
  [(- 2 ^ 32, 32); (4294901760, 16); (65280, 8); (240, 4); (12, 2); (2, 1)].
Definition msb_step (s : Z * Z) (p : Z * Z) : Z * Z :=
  if Z.land (fst s) (fst p) =? 0 then s else (Z.shiftr (fst s) (snd p), Z.lor (snd s) (snd p)).
Definition msb (v : Z) : Z := snd (fold_left msb_step msb_tests (i64 v, 0)).

Section Topology.
Context {N : num}.

(** Lines 102-107: _is_leaf_node. *)
Definition leaf_cell (e : ensemble N) (i : Z) : res bool :=
  do l <- mem_get (e_left e) i;
  if negb (l =? -1) then Ok false else do r <- mem_get (e_right e) i; Ok (r =? -1).

(** Lines 86-97: one turn of the loop; the node indices and max_index. *)
Definition index_step (include_leaves : bool) (e : ensemble N) (s : list Z * Z) (cur : Z) : res (list Z * Z) :=
  let '(ix, mx) := s in
  do leaf <- leaf_cell e cur;
  if leaf then
    if include_leaves then Ok s else do ix1 <- mem_set ix cur 0; Ok (ix1, mx)
  else
    do v <- mem_get ix cur;
    let lv := u64 (2 * v + 1) in
    let rv := u64 (2 * v + 2) in
    do l <- mem_get (e_left e) cur;
    do ix1 <- mem_set ix l lv;
    do r <- mem_get (e_right e) cur;
    do ix2 <- mem_set ix1 r rv;
    Ok (ix2, Z.max (Z.max mx lv) rv).

(** Lines 74-100: _compute_node_indices; the new indices and the height. *)
Definition node_indices (include_leaves : bool) (e : ensemble N) (t last : Z) (ix : list Z) : res (list Z * Z) :=
  do root <- mem_get (e_root e) t;
  do s <- foldM (index_step include_leaves e) (zrange root last) (ix, 0);
  Ok (fst s, msb (u64 (snd s + 1))).

(** Line 40. *)
Definition last_node (e : ensemble N) (t : Z) : res Z :=
  if t <? e_ntrees e - 1 then mem_get (e_root e) (t + 1) else Ok (e_nnodes e).

(** Lines 30-47, the trees taken in the order [order]. *)
Definition all_indices (include_leaves : bool) (e : ensemble N) (order : list Z) : res (list Z * list Z) :=
  foldM (fun s t => do last <- last_node e t;
                    do r <- node_indices include_leaves e t last (fst s);
                    do h <- mem_set (snd s) t (u32 (snd r));
                    Ok (fst r, h))
        order (repeat 0 (Z.to_nat (e_nnodes e)), repeat 0 (Z.to_nat (e_ntrees e))).

(** Line 50: np.unique(..., return_counts=True). *)
Fixpoint run_length (l : list Z) : list (Z * Z) :=
  match l with
  | [] => []
  | x :: r => match run_length r with
              | (y, c) :: q => if x =? y then (y, c + 1) :: q else (x, 1) :: (y, c) :: q
              | [] => [(x, 1)]
              end
  end.
Definition unique_counts (l : list Z) : list (Z * Z) := run_length (isort Z.leb l).

(** Lines 52-72: the entries (row, column, count) of the sparse matrix. *)
Definition coordinates (p : Z * Z) : Z * Z * Z :=
  let v := u64 (fst p + 1) in
  let row := msb v in
  (row, u64 (v - u64 (2 ^ row)), snd p).
Definition topology (include_leaves : bool) (e : ensemble N) (order : list Z) : res (list (Z * Z * Z) * list Z) :=
  do s <- all_indices include_leaves e order;
  match unique_counts (fst s) with
  | [] => Err MemFault
  | (v, _) :: r => Ok (map coordinates ((v, e_ntrees e) :: r), snd s)
  end.

(** topological.py 108-123: avg_tree_shape. *)
Definition avg_tree_shape (e : ensemble N) (m : list (Z * Z * Z)) : list (Z * Z * N) :=
  map (fun p => (fst p, ndiv (nofZ (snd p)) (nofZ (e_ntrees e)))) m.

(** topological.py 125-143: fullness_per_level: per row, the sum of the entries over their
    number, over the number of trees.  A row without entries gives 0/0, here [None]. *)
Definition row_entries (m : list (Z * Z * Z)) (row : Z) : list Z :=
  map snd (filter (fun p => fst (fst p) =? row) m).
Definition n_rows (m : list (Z * Z * Z)) : Z := fold_left Z.max (map (fun p => fst (fst p)) m) (-1) + 1.
Definition fullness_per_level (e : ensemble N) (m : list (Z * Z * Z)) : list (option N) :=
  map (fun row => match row_entries m row with
                  | [] => None
                  | l => Some (ndiv (ndiv (nofZ (fold_left Z.add l 0)) (nofZ (Z.of_nat (length l)))) (nofZ (e_ntrees e)))
                  end) (zrange 0 (n_rows m)).
End Topology.
