(** Model of rankeval/analysis/effectiveness.py.

    Model objects live in a store and are given by their position in it, so that the same object
    may appear several times and keeps its cache.  A metric is a function of the data set and the
    scores (M_MetricObjects.v has metrics with state).  NaN cells are [None].  The DataArray is modelled
    by its values and its numeric coordinates; progress bars are not modelled. *)
From Coq Require Import List ZArith Bool.
From Verif Require Import Base Num M_Dataset M_NDCG M_Ensemble.
Import ListNotations.
Local Open Scope Z_scope.

(** A loop with state that collects one value per element. *)
Fixpoint mapST {S A B} (f : S -> A -> res (S * B)) (s : S) (l : list A) : res (S * list B) :=
  match l with
  | [] => Ok (s, [])
  | a :: l' => do r <- f s a; do rs <- mapST f (fst r) l'; Ok (fst rs, snd r :: snd rs)
  end.

(** [range(a, b, s)]; ValueError when [s] is 0. *)
Definition py_range (a b s : Z) : res (list Z) :=
  if s =? 0 then Err ValueError
  else let count := if 0 <? s then (b - a + s - 1) / s else (a - b - s - 1) / (- s) in
       Ok (map (fun q => a + q * s) (zrange 0 count)).

(** np.unique of integers. *)
Definition unique (l : list Z) : list Z := nodup Z.eq_dec (isort Z.leb l).

Section Effectiveness.
Context {N : num}.
Variable rowsum : list N -> N.
Variable digest : list (list N) -> list N -> list Z -> Z.
Definition evaluator : Type := dataset N -> list N -> res (N * list N).

(** model.score on the object at position [i] of the store. *)
Definition score_in (st : list (model N)) (i : nat) (o : obj (N:=N)) (detailed cache : bool) : res (list (model N) * answer (N:=N)) :=
  do m <- of_option IndexError (nth_error st i);
  let '(m', r) := score rowsum digest m o detailed cache in
  do a <- r; Ok (upd st i m', a).

(** The array y_pred; None cannot be indexed. *)
Definition y_pred (a : answer (N:=N)) : res (list N) :=
  match a with Basic (Some y) => Ok y | Detailed (Some y) _ _ => Ok y | _ => Err TypeError end.
Definition partial_y_pred (a : answer (N:=N)) : res (list (list N)) :=
  match a with Detailed _ (Some p) _ => Ok p | _ => Err TypeError end.

(** Lines 64-78: model_performance. *)
Definition model_performance (st : list (model N)) (ds : list (obj (N:=N))) (ms : list nat) (metrics : list evaluator) (cache : bool)
    : res (list (model N) * list (list (list N))) :=
  mapST (fun st o =>
    mapST (fun st i =>
      do r <- score_in st i o false cache;
      do y <- y_pred (snd r);
      do row <- mapM (fun f : evaluator => do v <- f (snd o) y; Ok (nf32 (fst v))) metrics;
      Ok (fst r, row)) st ms) st ds.

(** Lines 115-120: get_tree_steps. *)
Definition tree_steps (step n : Z) : res (list Z) :=
  do trees <- py_range (step - 1) n step;
  do last <- py_get trees (-1);
  Ok (if last =? n - 1 then trees else trees ++ [n - 1]).

(** Lines 122-125 and 202-205. *)
Definition n_trees_of (st : list (model N)) (i : nat) : res Z :=
  do m <- of_option IndexError (nth_error st i); Ok (e_ntrees (m_ens m)).
Definition max_num_trees (st : list (model N)) (ms : list nat) : res Z :=
  foldM (fun a i => do n <- n_trees_of st i; Ok (if a <? n then n else a)) ms 0.

(** Line 156: y_pred (float64) plus the sums of the columns of the next trees. *)
Definition add_trees (y : list N) (parts : list (list N)) (a b : Z) : res (list N) :=
  if (length y =? length parts)%nat then Ok (map (fun p => nadd (fst p) (rowsum (slice a b (snd p)))) (combine y parts))
  else Err ValueError.

(** Lines 147-164: the rows of one model on one data set. *)
Definition steps_of_model (d : dataset N) (parts : list (list N)) (metrics : list evaluator) (step : Z) (own : list Z) : res (list (list N)) :=
  do r <- mapST (fun y p =>
            do y' <- add_trees y parts (fst p * step) (snd p + 1);
            do row <- mapM (fun f : evaluator => do v <- f d y'; Ok (nf32 (fst v))) metrics;
            Ok (y', row))
          (repeat nzero (n_instances d)) (combine (zrange 0 (Z.of_nat (length own))) own);
  Ok (snd r).

(** Lines 122-174: tree_wise_performance; the coordinates k and the values. *)
Definition tree_wise_performance (st : list (model N)) (ds : list (obj (N:=N))) (ms : list nat) (metrics : list evaluator) (step : Z) (cache : bool)
    : res (list (model N) * (list Z * list (list (list (option (list N)))))) :=
  do mx <- max_num_trees st ms;
  do steps <- tree_steps step mx;
  do r <- mapST (fun st o =>
    mapST (fun st i =>
      do r <- score_in st i o true cache;
      do parts <- partial_y_pred (snd r);
      do n <- n_trees_of st i;
      do own <- tree_steps step n;
      do rows <- steps_of_model (snd o) parts metrics step own;
      if (length steps <? length rows)%nat then Err IndexError
      else Ok (fst r, map Some rows ++ repeat None (length steps - length rows))) st ms) st ds;
  Ok (fst r, (map (fun k => k + 1) steps, snd r)).

(** Lines 202-226: tree_wise_average_contribution.  Without instances every mean is NaN. *)
Definition nabs (x : N) : N := if nltb x nzero then nsub nzero x else x.
Definition average_contribution (n : Z) (parts : list (list N)) : res (list (option N)) :=
  mapM (fun t => do col <- mapM (fun row => py_get row t) parts;
                 Ok (match col with [] => None | _ => Some (nf32 (ndiv (nsum (map nabs col)) (nofnat (length col)))) end)) (zrange 0 n).
Definition tree_wise_average_contribution (st : list (model N)) (ds : list (obj (N:=N))) (ms : list nat) (cache : bool)
    : res (list (model N) * list (list (list (option N)))) :=
  do mx <- max_num_trees st ms;
  mapST (fun st o =>
    mapST (fun st i =>
      do r <- score_in st i o true cache;
      do parts <- partial_y_pred (snd r);
      do n <- n_trees_of st i;
      do c <- average_contribution n parts;
      Ok (fst r, c ++ repeat None (Z.to_nat mx - length c))) st ms) st ds.

(** Lines 271-282, 352-360: the scores of every query, data set by data set. *)
Definition query_scores (st : list (model N)) (ds : list (obj (N:=N))) (ms : list nat) (metrics : list evaluator) (cache : bool)
    : res (list (model N) * list (list (list (list N)))) :=
  mapST (fun st o =>
    mapST (fun st i =>
      do r <- score_in st i o false cache;
      do y <- y_pred (snd r);
      do row <- mapM (fun f : evaluator => do v <- f (snd o) y; Ok (snd v)) metrics;
      Ok (fst r, row)) st ms) st ds.

Definition nmin (l : list N) : res N :=
  match l with [] => Err ValueError | x :: xs => Ok (fold_left (fun m v => if nleb v m then v else m) xs x) end.

(** np.linspace(start, stop, num = bins + 1): the last value is [stop] itself, unless it is alone. *)
Definition linspace (start stop : N) (bins : nat) : list N :=
  if (bins =? 0)%nat then [start] else
  map (fun i => nadd (nmul (nofnat i) (ndiv (nsub stop start) (nofnat bins))) start) (seq 0 bins) ++ [stop].

(** np.histogram with given edges, through sorting and searchsorted: differences of the numbers of
    values below each edge, the last edge being included.  Edges must not decrease. *)
Fixpoint non_decreasing (l : list N) : bool :=
  match l with
  | a :: (b :: _) as r => nleb a b && non_decreasing r
  | _ => true
  end.
Definition below (a : list N) (edge : N) : Z := Z.of_nat (length (filter (fun v => nltb v edge) a)).
Definition not_above (a : list N) (edge : N) : Z := Z.of_nat (length (filter (fun v => nleb v edge) a)).
Fixpoint search_inclusive (a edges : list N) : list Z :=
  match edges with
  | [] => []
  | [e] => [not_above a e]
  | e :: r => below a e :: search_inclusive a r
  end.
Fixpoint diff (l : list Z) : list Z := match l with a :: ((b :: _) as r) => b - a :: diff r | _ => [] end.
Definition histogram (a edges : list N) : res (list Z) :=
  if non_decreasing edges then Ok (diff (search_inclusive a edges)) else Err ValueError.
(** np.cumsum. *)
Fixpoint cumsum_from (s : Z) (l : list Z) : list Z := match l with [] => [] | a :: r => s + a :: cumsum_from (s + a) r end.
Definition cumsum := cumsum_from 0.

(** Lines 300-305 and 467-471: the curve of one vector of scores; NaN without scores. *)
Definition cumulative (a edges : list N) : res (list (option N)) :=
  do values <- histogram a edges;
  Ok (map (fun c => match a with [] => None | _ => Some (nf32 (ndiv (nofZ c) (nofnat (length a)))) end) (cumsum values)).

(** Lines 284-294, 446-456: range and edges.  [lo] and [hi] are the extremes of the scores; the
    case where nothing was scored (no data set, model or metric), with a range of NaN, is not
    modelled (it is an error here).  A negative number of bins is rejected by linspace or full. *)
Definition edges_of (scores : list N) (bins : Z) (start stop : option N) : res (list N) :=
  do lo <- nmin scores;
  do hi <- nmax scores;
  if bins <? 0 then Err ValueError
  else Ok (linspace (match start with Some v => v | None => lo end) (match stop with Some v => v | None => hi end) (Z.to_nat bins)).
(** Lines 310, 476: the coordinates of the bins; dividing by a NumPy integer does not raise. *)
Definition bin_coordinates (edges : list N) (bins : Z) (numpy : bool) : res (list N) :=
  if negb numpy && (bins =? 0) then Err ZeroDivisionError else Ok (map (fun e => nadd e (ndiv none (nofZ bins))) (removelast edges)).

(** Lines 271-312: query_wise_performance.  (A metric with no query raises in min().) *)
Definition query_wise_performance (st : list (model N)) (ds : list (obj (N:=N))) (ms : list nat) (metrics : list evaluator)
    (bins : option Z) (start stop : option N) (cache : bool) : res (list (model N) * (list N * list (list (list (list (option N)))))) :=
  do r <- query_scores st ds ms metrics cache;
  do _ <- mapM (fun a => nmin a) (concat (concat (snd r)));
  do b <- (match bins with
           | Some b => Ok b
           | None => match map (fun o => Z.of_nat (n_queries (snd o))) ds with [] => Err ValueError | x :: xs => Ok (fold_left Z.max xs x) end
           end);
  do edges <- edges_of (concat (concat (concat (snd r)))) b start stop;
  do data <- mapM (fun pd => mapM (fun pm => mapM (fun a => cumulative a edges) pm) pd) (snd r);
  do c <- bin_coordinates edges b (match bins with None => true | Some _ => false end);
  Ok (fst r, (c, data)).

(** Lines 352-389: query_class_performance; [classes] has one list per data set, compared element by
    element with the class.  (np.where returns a tuple, so the test of line 378 never skips.) *)
Definition where_class (c : Z) (l : list Z) : list Z := map fst (filter (fun p => snd p =? c) (combine (zrange 0 (Z.of_nat (length l))) l)).
Definition class_mean (scores : list N) (cls : list Z) (c : Z) : res (option N) :=
  do v <- mapM (fun i => py_get scores i) (where_class c cls);
  Ok (match v with [] => None | _ => Some (nf32 (ndiv (nsum v) (nofnat (length v)))) end).
Definition query_class_performance (st : list (model N)) (ds : list (obj (N:=N))) (ms : list nat) (metrics : list evaluator)
    (classes : list (list Z)) (cache : bool) : res (list (model N) * (list Z * list (list (list (list (option N)))))) :=
  do r <- query_scores st ds ms metrics cache;
  let all := unique (concat (map unique classes)) in
  do data <- mapM (fun p => mapM (fun pm => mapM (fun scores => mapM (fun c => do cls <- py_get classes (fst p); class_mean scores cls c) all) pm) (snd p))
                  (combine (zrange 0 (Z.of_nat (length (snd r)))) (snd r));
  Ok (fst r, (all, data)).

(** Lines 453, 512: np.unique of the list of label arrays: they must have the same size. *)
Definition nunique (l : list N) : list N :=
  fold_right (fun v acc => match acc with a :: _ => if neqb v a then acc else v :: acc | [] => [v] end) [] (isort nleb l).
Definition rel_labels (ds : list (obj (N:=N))) : res (list N) :=
  match ds with
  | [] => Ok []
  | o :: r => if forallb (fun o' => (length (ds_y (snd o')) =? length (ds_y (snd o)))%nat) r
              then Ok (nunique (concat (map (fun o => ds_y (snd o)) ds))) else Err ValueError
  end.

(** Lines 435-478: document_graded_relevance. *)
Definition scores_with_label (d : dataset N) (y : list N) (label : N) : res (list N) :=
  mapM (fun i => py_get y i) (map fst (filter (fun p => neqb (snd p) label) (combine (zrange 0 (Z.of_nat (length (ds_y d)))) (ds_y d)))).
Definition document_graded_relevance (st : list (model N)) (ds : list (obj (N:=N))) (ms : list nat) (bins : Z) (start stop : option N) (cache : bool)
    : res (list (model N) * (list N * list N * list (list (list (list (option N)))))) :=
  do r <- mapST (fun st o => mapST (fun st i => do r <- score_in st i o false cache; do y <- y_pred (snd r); do _ <- nmin y; Ok (fst r, y)) st ms) st ds;
  do edges <- edges_of (concat (concat (snd r))) bins start stop;
  do labels <- rel_labels ds;
  do r2 <- mapST (fun st o => mapST (fun st i =>
             mapST (fun st l => do r <- score_in st i o false cache;
                                do y <- y_pred (snd r);
                                do a <- scores_with_label (snd o) y l;
                                do c <- cumulative a edges;
                                Ok (fst r, c)) st labels) st ms) (fst r) ds;
  do c <- bin_coordinates edges bins false;
  Ok (fst r2, (labels, c, snd r2)).

(** Lines 512-537: rank_confusion_matrix; [to_int] is astype(np.int32). *)
Variable to_int : N -> Z.
Definition increment (m : list (list Z)) (a b : Z) : res (list (list Z)) :=
  do row <- py_get m a;
  do v <- py_get row b;
  do row' <- py_set row b (i32 (v + 1));
  py_set m a row'.
Definition compare_pair (d : dataset N) (y : list N) (skip : bool) (m : list (list Z)) (p : Z * Z) : res (list (list Z)) :=
  do li <- py_get (ds_y d) (fst p);
  do lj <- py_get (ds_y d) (snd p);
  if skip && neqb li lj then Ok m
  else do yi <- py_get y (fst p);
       do yj <- py_get y (snd p);
       if nltb yi yj then increment m (to_int li) (to_int lj) else increment m (to_int lj) (to_int li).
(** The pairs (i, j) with i <= j of the queries. *)
Definition pairs_of (d : dataset N) : list (Z * Z) :=
  concat (map (fun q => let '(a, b) := (Z.of_nat (fst (snd q)), Z.of_nat (snd (snd q))) in
                        concat (map (fun i => map (fun j => (i, j)) (zrange i b)) (zrange a b))) (query_iterator d)).
Definition rank_confusion_matrix (st : list (model N)) (ds : list (obj (N:=N))) (ms : list nat) (skip cache : bool)
    : res (list (model N) * (list Z * list (list (list (list Z))))) :=
  do labels <- rel_labels ds;
  let L := length labels in
  do r <- mapST (fun st o => mapST (fun st i =>
            do r <- score_in st i o false cache;
            do y <- y_pred (snd r);
            do m <- foldM (compare_pair (snd o) y skip) (pairs_of (snd o)) (repeat (repeat 0 L) L);
            Ok (fst r, m)) st ms) st ds;
  Ok (fst r, (map to_int labels, snd r)).
End Effectiveness.
