(** Model of rankeval/analysis/statistical.py.

    NaN is [None] where the code can produce it.  [sum] is np.sum, in whatever order NumPy adds.
    The random generators are arguments: the selections and the shuffles they return.  Whether the
    code runs in a notebook with ipywidgets is the argument [notebook]; progress bars are not modelled
    except where using them fails. *)
From Coq Require Import List ZArith Bool.
From Verif Require Import Base Num M_Dataset M_NDCG M_Ensemble M_Effectiveness.
Import ListNotations.
Local Open Scope Z_scope.

(** Boolean mask indexing, l[mask]; IndexError when the lengths differ. *)
Definition np_mask {A} (mask : list bool) (l : list A) : res (list A) :=
  if (length mask =? length l)%nat then Ok (mask_select mask l) else Err IndexError.

(** mask[s:e] = True. *)
Definition set_true (s e : nat) (mask : list bool) : list bool :=
  map (fun p => if (s <=? fst p)%nat && (fst p <? e)%nat then true else snd p) (combine (seq 0 (length mask)) mask).

(** target[mask] = values: as many values as true entries, or a single one for all of them. *)
Fixpoint put {A} (mask : list bool) (vals target : list A) : list A :=
  match mask, target with
  | true :: m, t :: ts => match vals with v :: vs => v :: put m vs ts | [] => t :: ts end
  | false :: m, t :: ts => t :: put m vals ts
  | _, _ => target
  end.
Definition assign_mask {A} (mask : list bool) (vals target : list A) : res (list A) :=
  let n := length (filter (fun b : bool => b) mask) in
  if (length vals =? n)%nat then Ok (put mask vals target)
  else match vals with [v] => Ok (put mask (repeat v n) target) | _ => Err ValueError end.

(** What the learning algorithm is given: train_X, train_Y, train_q, test_X. *)
Record call (V : Type) : Type := mkCall { c_X : list (list V); c_y : list V; c_sizes : list nat; c_test : list (list V) }.
Arguments mkCall {V}. Arguments c_X {V}. Arguments c_y {V}. Arguments c_sizes {V}. Arguments c_test {V}.

Section Statistical.
Context {N : num}.
Variable sum : list N -> N.

(** np.mean; NaN without elements. *)
Definition np_mean (l : list N) : option N :=
  match l with [] => None | _ => Some (ndiv (sum l) (nofnat (length l))) end.
(** Operations on numbers that may be NaN; comparisons with NaN are false. *)
Definition osub (x y : option N) : option N := match x, y with Some a, Some b => Some (nsub a b) | _, _ => None end.
Definition oltb (x y : option N) : bool := match x, y with Some a, Some b => nltb a b | _, _ => false end.
Definition oleb (x y : option N) : bool := match x, y with Some a, Some b => nleb a b | _, _ => false end.

(** Lines 154-175: one iteration.  [sel] is np.random.choice([False, True], len(metric_scores_a)).
    When there are no scores the quotients are 0 / 0. *)
Definition randomization_step (best worst : list N) (n : nat) (difference : option N) (sel : list bool) (p : N * N) : res (N * N) :=
  do a_sel <- np_mask sel best;
  do b_sel <- np_mask sel worst;
  let over_n x := if (n =? 0)%nat then None else Some (ndiv x (nofnat n)) in
  let a_mean := over_n (nadd (nsub (sum best) (sum a_sel)) (sum b_sel)) in
  let b_mean := over_n (nadd (nsub (sum worst) (sum b_sel)) (sum a_sel)) in
  let delta := osub a_mean b_mean in
  Ok (if oleb difference delta then nadd (fst p) none else fst p,
      if oleb (option_map nabs difference) (option_map nabs delta) then nadd (snd p) none else snd p).

(** Lines 99-184: _randomization, the one-sided and the two-sided p-value.  [choice i j] is entry
    [j] of the selection drawn in iteration [i]. *)
Definition randomization (choice : nat -> nat -> bool) (a b : list N) (n_perm : Z) : res (N * N) :=
  let '(best, worst) := if oltb (np_mean a) (np_mean b) then (b, a) else (a, b) in
  let difference := osub (np_mean best) (np_mean worst) in
  do p <- foldM (fun p i => randomization_step best worst (length a) difference (map (choice i) (seq 0 (length a))) p)
                (seq 0 (Z.to_nat n_perm)) (nzero, nzero);
  if n_perm =? 0 then Err ZeroDivisionError
  else Ok (ndiv (fst p) (nofZ n_perm), ndiv (snd p) (nofZ n_perm)).

(** Lines 35-96: statistical_significance.  Model objects are positions in a store, as in
    M_Effectiveness.v; [choice d m] is the generator for data set [d] and metric [m]. *)
Definition statistical_significance (digest : list (list N) -> list N -> list Z -> Z) (rowsum : list N -> N)
    (choice : nat -> nat -> nat -> nat -> bool) (st : list (model N)) (ds : list (obj (N:=N)))
    (model_a model_b : nat) (metrics : list (evaluator (N:=N))) (n_perm : Z) (cache : bool)
    : res (list (model N) * list (list (N * N))) :=
  mapST (fun st o =>
    do ra <- score_in rowsum digest st model_a (snd o) false cache;
    do ya <- y_pred (snd ra);
    do rb <- score_in rowsum digest (fst ra) model_b (snd o) false cache;
    do yb <- y_pred (snd rb);
    do row <- mapM (fun f : nat * evaluator (N:=N) =>
        do va <- snd f (snd (snd o)) ya;
        do vb <- snd f (snd (snd o)) yb;
        do p <- randomization (choice (fst o) (fst f)) (snd va) (snd vb) n_perm;
        Ok (nf32 (fst p), nf32 (snd p))) (combine (seq 0 (length metrics)) metrics);
    Ok (fst rb, row)) st (combine (seq 0 (length ds)) ds).

(** Lines 217-227: the rows and the queries of the fold that starts at [p]. *)
Definition fold_masks (d : dataset N) (queries : list nat) : res (list bool * list bool) :=
  do test_rows <- foldM (fun m q =>
      do s <- of_option IndexError (nth_error (ds_offs d) q);
      do e <- of_option IndexError (nth_error (ds_offs d) (S q));
      Ok (set_true s e m)) queries (repeat false (n_instances d));
  do train_q <- foldM (fun m q => if (q <? length m)%nat then Ok (upd m q false) else Err IndexError)
      queries (repeat true (n_queries d));
  Ok (test_rows, train_q).

(** Lines 229-235: the arguments of the algorithm. *)
Definition fold_call (d : dataset N) (queries : list nat) : res (list bool * call N) :=
  do m <- fold_masks d queries;
  let train_rows := map negb (fst m) in
  do tx <- np_mask train_rows (ds_X d);
  do ty <- np_mask train_rows (ds_y d);
  do ts <- np_mask (snd m) (get_query_sizes d);
  do sx <- np_mask (fst m) (ds_X d);
  Ok (fst m, mkCall tx ty ts sx).

(** The algorithm may depend on all the calls made before, also when it is random or keeps state. *)
Definition algorithm : Type := list (call N) -> call N -> res (list N).

(** Lines 212-239: the loop over the folds.  Returns all calls made, also when it fails. *)
Fixpoint kfold_loop (algo : algorithm) (d : dataset N) (shuffled : list nat) (chunk : Z) (starts : list Z)
    (made : list (call N)) (scores : list N) : list (call N) * res (list N) :=
  match starts with
  | [] => (made, Ok scores)
  | p :: starts' =>
      match fold_call d (slice p (p + chunk) shuffled) with
      | Err e => (made, Err e)
      | Ok (test_rows, c) =>
          let made' := made ++ [c] in
          match algo made c with
          | Err e => (made', Err e)
          | Ok fold_scores =>
              match assign_mask test_rows (map nf32 fold_scores) scores with
              | Err e => (made', Err e)
              | Ok scores' => kfold_loop algo d shuffled chunk starts' made' scores'
              end
          end
      end
  end.

(** Lines 187-244: _kfold_scoring.  [shuffled] is np.random.permutation(n_queries).  The float
    quotient of line 211 is exact (see M_Sizes.v).  Line 241 uses the
    progress bar unconditionally: it is an unbound local variable outside a notebook. *)
Definition kfold_scoring (notebook : bool) (algo : algorithm) (d : dataset N) (k : Z) (shuffled : list nat) (made : list (call N))
    : list (call N) * res (list N) :=
  let n := Z.of_nat (n_queries d) in
  if k =? 0 then (made, Err ZeroDivisionError) else
  let chunk := - ((- n) / k) in
  match py_range 0 n chunk with
  | Err e => (made, Err e)
  | Ok starts =>
      let '(made', r) := kfold_loop algo d shuffled chunk starts made (repeat nzero (n_instances d)) in
      (made', do scores <- r; if notebook then Ok scores else Err UnboundLocalError)
  end.

(** Lines 247-287: _multi_kfold_scoring, the matrix as the list of its columns. *)
Definition multi_kfold_scoring (notebook : bool) (algo : algorithm) (d : dataset N) (L k : Z) (shuffles : nat -> list nat) (made : list (call N))
    : res (list (call N) * list (list N)) :=
  mapST (fun made l => let r := kfold_scoring notebook algo d k (shuffles l) made in do s <- snd r; Ok (fst r, s))
        made (seq 0 (Z.to_nat L)).

Definition square_of (x : N) : N := npow x 2.
(** np.mean of values that are known to exist: no data set without queries gets here, since
    range(0, 0, 0) of line 212 fails. *)
Definition mean_of (l : list N) : N := ndiv (sum l) (nofnat (length l)).
Definition transposed (n : nat) (cols : list (list N)) : list (list N) :=
  map (fun i => map (fun c => nth i c nzero) cols) (seq 0 n).

(** Lines 374-385: the three means, from the columns of the matrix and the desired value of each row. *)
Definition decomposition (cols : list (list N)) (target : list N) : N * (N * N) :=
  let rows := transposed (length target) cols in
  let avg_pred := map mean_of rows in
  let around centre := mean_of (concat (map (fun p => map (fun x => square_of (nsub x (fst p))) (snd p)) (combine centre rows))) in
  (around target, (mean_of (map (fun p => square_of (nsub (fst p) (snd p))) (combine avg_pred target)), around avg_pred)).

(** Line 373: column [i] of q_scores; a single value would fill the column. *)
Definition as_column (n : nat) (v : list N) : res (list N) :=
  if (length v =? n)%nat then Ok (map nf32 v)
  else match v with [x] => Ok (repeat (nf32 x) n) | _ => Err ValueError end.

(** Lines 360-389: one cell.  [fst metric] tells whether the metric is an instance of MSE. *)
Definition bias_variance_cell (d : dataset N) (cols : list (list N)) (metric : bool * evaluator (N:=N)) : res (N * (N * N)) :=
  do r <- (if fst metric then Ok (decomposition cols (ds_y d))
           else do q <- mapM (fun c => do v <- snd metric d c; as_column (n_queries d) (snd v)) cols;
                Ok (decomposition q (repeat none (n_queries d))));
  Ok (nf32 (fst r), (nf32 (fst (snd r)), nf32 (snd (snd r)))).

(** data[idx_dataset][idx_metric][idx_algo], filled algorithm by algorithm. *)
Definition by_metric {A} (n_metrics : nat) (rows : list (list A)) : res (list (list A)) :=
  mapM (fun m => mapM (fun row => of_option IndexError (nth_error row m)) rows) (seq 0 n_metrics).

(** Lines 290-407: bias_variance.  [shuffles d a m l] are the shuffles drawn. *)
Definition bias_variance (notebook : bool) (shuffles : nat -> nat -> nat -> nat -> list nat) (ds : list (dataset N)) (algos : list algorithm)
    (metrics : list (bool * evaluator (N:=N))) (L k : Z) (made : list (call N)) : res (list (call N) * list (list (list (N * (N * N))))) :=
  if (k <? 2) || (L <? 2) || (length ds =? 0)%nat || (length metrics =? 0)%nat then Err AssertionError else
  mapST (fun made d =>
    do r <- mapST (fun made a =>
      mapST (fun made m =>
        do cols <- multi_kfold_scoring notebook (snd a) (snd d) L k (shuffles (fst d) (fst a) (fst m)) made;
        do cell <- bias_variance_cell (snd d) (snd cols) (snd m);
        Ok (fst cols, cell)) made (combine (seq 0 (length metrics)) metrics)) made (combine (seq 0 (length algos)) algos);
    do rows <- by_metric (length metrics) (snd r);
    Ok (fst r, rows)) made (combine (seq 0 (length ds)) ds).
End Statistical.
Arguments algorithm : clear implicits.
