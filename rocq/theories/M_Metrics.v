(** Model of rankeval/metrics/*.py.

    A query is given by its labels [y] and predicted scores [s] (y_pred).
    [argsort] stands for np.argsort (an unstable quicksort): any function; the
    statements assume that it returns some sorting permutation.
    Simplifications: sums are sequential (NumPy adds pairwise: M_MetricSums.v leaves
    the order open); display names and
    __str__ are dropped; kendall_tau.py and spearman_rho.py only call scipy and
    are covered through Metric.eval with an arbitrary per-query function. *)
From Coq Require Import List ZArith Lia Bool.
From Verif Require Import Base Num M_Dataset.
Import ListNotations.

Section Metrics.
Context {N : num}.
Variable argsort : list N -> list nat.

(** [np.argsort(y_pred)[::-1]], then [[:cutoff]] unless cutoff is None
    (precision.py 92-94 and the same lines in every ranking metric). *)
Definition order (cutoff : option Z) (s : list N) : list nat :=
  let idx := rev (argsort s) in
  match cutoff with None => idx | Some k => slice_to k idx end.

(** NumPy fancy indexing [y[idx]]. *)
Definition take {A} (y : list A) (idx : list nat) : res (list A) :=
  mapM (fun i => of_option IndexError (nth_error y i)) idx.

Definition count {A} (p : A -> bool) (l : list A) : nat := length (filter p l).

(** precision.py 72-97. *)
Definition precision (cutoff : option Z) (thr : N) (y s : list N) : res N :=
  let idx := order cutoff s in
  do l <- take y idx;
  let hits := count (fun v => nleb thr v) l in
  if Nat.eqb (length idx) 0 then Err ZeroDivisionError
  else Ok (ndiv (nofnat hits) (nofnat (length idx))).

(** precision_max.py 65-90. *)
Definition precision_max (cutoff : option Z) (y s : list N) : res N :=
  let idx := order cutoff s in
  do l <- take y idx;
  do m <- nmax y;
  let hits := count (fun v => nleb m v) l in
  if Nat.eqb (length idx) 0 then Err ZeroDivisionError
  else Ok (ndiv (nofnat hits) (nofnat (length idx))).

(** recall.py 77-108. *)
Definition recall (norel : N) (cutoff : option Z) (thr : N) (y s : list N) : res N :=
  let idx := order cutoff s in
  do l <- take y idx;
  let hits := count (fun v => nleb thr v) l in
  let rel := count (fun v => nleb thr v) y in
  if negb (Nat.eqb rel 0) then Ok (ndiv (nofnat hits) (nofnat rel)) else Ok norel.

(** mrr.py 100-103: the search loop, [i] is the current position. *)
Fixpoint mrr_loop (thr : N) (y : list N) (i : nat) (idx : list nat) : res (option nat) :=
  match idx with
  | [] => Ok None
  | j :: idx' =>
      do v <- of_option IndexError (nth_error y j);
      if nleb thr v then Ok (Some i) else mrr_loop thr y (S i) idx'
  end.

(** mrr.py 72-108. *)
Definition mrr (cutoff : option Z) (thr : N) (y s : list N) : res N :=
  do r <- mrr_loop thr y 0 (order cutoff s);
  match r with
  | Some i => Ok (ndiv none (nadd (nofnat i) none))
  | None => Ok nzero
  end.

(** map.py 103-106: one iteration; state (position, relevant so far, sum of precisions). *)
Definition map_step (st : nat * nat * N) (v : N) : nat * nat * N :=
  let '(i, rel, acc) := st in
  if nltb nzero v
  then (S i, S rel, nadd acc (ndiv (nofnat (S rel)) (nofnat (S i))))
  else (S i, rel, acc).

(** map.py 67-111.  The counter n_relevant_retrieved_at_i is a float holding an
    integer; it is a [nat] here.  Note that relevance is [y > 0] in the loop but
    [y != 0] in the denominator. *)
Definition average_precision (norel : N) (cutoff : option Z) (y s : list N) : res N :=
  let idx := order cutoff s in
  do l <- take y idx;
  let '(_, rel, acc) := fold_left map_step l (0%nat, 0%nat, nzero) in
  let nz := count (fun v => negb (neqb v nzero)) y in
  if (0 <? rel)%nat
  then (if Nat.eqb (Nat.min (length idx) nz) 0 then Err ZeroDivisionError
        else Ok (ndiv acc (nofnat (Nat.min (length idx) nz))))
  else Ok norel.

(** dcg.py: the [implementation] parameter; any string other than the two leaves
    [gain] unbound. *)
Inductive gain_kind : Type := Flat | Exp | OtherImpl.

Definition gain (g : gain_kind) (v : N) : N :=
  match g with Flat => v | _ => nsub (nexp2 v) none end.

(** dcg.py 91: discount of position [i] (0-based), log2(i + 2). *)
Definition discount (i : nat) : N := nlog2 (nofnat (i + 2)).

(** dcg.py 65-99. *)
Definition dcg (g : gain_kind) (cutoff : option Z) (y s : list N) : res N :=
  let idx := order cutoff s in
  match g with
  | OtherImpl => Err UnboundLocalError
  | _ =>
    do l <- take y idx;
    Ok (nsum (map (fun p => ndiv (gain g (snd p)) (discount (fst p)))
                  (combine (seq 0 (length l)) l)))
  end.

(** ndcg.py 131-135. *)
Definition ndcg_of (norel dcg_score idcg_score : N) : N :=
  if negb (neqb idcg_score nzero) then ndiv dcg_score idcg_score else norel.

(** ndcg.py 99-135 on an object on which eval was never called
    ([_current_rel_qid] is None). *)
Definition ndcg_fresh (norel : N) (g : gain_kind) (cutoff : option Z) (y s : list N) : res N :=
  do d <- dcg g cutoff y s;
  do i <- dcg g cutoff y y;
  Ok (ndcg_of norel d i).

(** err.py 93, pfound.py 107: utility of a label. *)
Definition utility (max_grade v : N) : N := ndiv (nsub (nexp2 v) none) (nexp2 max_grade).

(** err.py 92-95: one iteration; state (position, prob_step_down, err). *)
Definition err_step (m : N) (st : nat * N * N) (v : N) : nat * N * N :=
  let '(i, p, e) := st in
  let u := utility m v in
  (S i, nmul p (nsub none u), nadd e (nmul p (ndiv u (nadd (nofnat i) none)))).

(** err.py 63-97. *)
Definition err (cutoff : option Z) (y s : list N) : res N :=
  do m <- nmax y;
  do l <- take y (order cutoff s);
  Ok (snd (fold_left (err_step m) l (0%nat, none, nzero))).

(** pfound.py 106-109: one iteration. *)
Definition pfound_step (pa m : N) (st : nat * N * N) (v : N) : nat * N * N :=
  let '(i, p, e) := st in
  let u := utility m v in
  (S i, nmul p (nsub none u), nadd e (nmul (nmul p u) (npow pa i))).

(** pfound.py 77-111. *)
Definition pfound (cutoff : option Z) (pa : N) (y s : list N) : res N :=
  do m <- nmax y;
  do l <- take y (order cutoff s);
  Ok (snd (fold_left (pfound_step pa m) l (0%nat, none, nzero))).

(** rbp.py 94-121. *)
Definition rbp (cutoff : option Z) (thr p : N) (y s : list N) : res N :=
  do l <- take y (order cutoff s);
  Ok (nmul (nsub none p)
           (nsum (map (fun q => nmul (if nleb thr (snd q) then none else nzero)
                                     (npow p (fst q)))
                      (combine (seq 0 (length l)) l)))).

(** mse.py 66-91.  Arrays of different lengths raise (broadcasting of a
    one-element array is not modelled). *)
Definition sq (x : N) : N := nmul x x.
Definition mse_pq (cutoff : option Z) (y s : list N) : res N :=
  match cutoff with
  | Some _ =>
      let idx := order cutoff s in
      do ly <- take y idx;
      do ls <- take s idx;
      Ok (nsum (map (fun q => sq (nsub (fst q) (snd q))) (combine ly ls)))
  | None =>
      if negb (Nat.eqb (length y) (length s)) then Err ValueError
      else Ok (nsum (map (fun q => sq (nsub (fst q) (snd q))) (combine y s)))
  end.

(** rmse.py 60-81. *)
Definition rmse_pq (cutoff : option Z) (y s : list N) : res N :=
  do m <- mse_pq cutoff y s; Ok (nsqrt m).

(** The metrics that inherit Metric.eval and whose value is a function of the query. *)
Inductive metric : Type :=
| Precision (cutoff : option Z) (thr : N)
| PrecisionMax (cutoff : option Z)
| Recall (norel : N) (cutoff : option Z) (thr : N)
| MRR (cutoff : option Z) (thr : N)
| MAP (norel : N) (cutoff : option Z)
| DCG (g : gain_kind) (cutoff : option Z)
| NDCGfresh (norel : N) (g : gain_kind) (cutoff : option Z)
| ERR (cutoff : option Z)
| Pfound (cutoff : option Z) (pa : N)
| RBP (cutoff : option Z) (thr p : N)
| RMSE (cutoff : option Z).

Definition eval_per_query (m : metric) (y s : list N) : res N :=
  match m with
  | Precision k t => precision k t y s
  | PrecisionMax k => precision_max k y s
  | Recall n k t => recall n k t y s
  | MRR k t => mrr k t y s
  | MAP n k => average_precision n k y s
  | DCG g k => dcg g k y s
  | NDCGfresh n g k => ndcg_fresh n g k y s
  | ERR k => err k y s
  | Pfound k p => pfound k p y s
  | RBP k t p => rbp k t p y s
  | RMSE k => rmse_pq k y s
  end.

(** metric.py 113-116: query_iterator. *)
Definition metric_queries (d : dataset N) (s : list N) : list (Z * (list N * list N)) :=
  map (fun t => (fst t,
        (slice (Z.of_nat (fst (snd t))) (Z.of_nat (snd (snd t))) (ds_y d),
         slice (Z.of_nat (fst (snd t))) (Z.of_nat (snd (snd t))) s)))
      (query_iterator d).

(** np.nanmean of a float32 vector (the NaN returned for an empty or all-NaN
    vector is the 0/0 of the model's division). *)
Definition nanmean (l : list N) : N :=
  let ok := filter (fun v => negb (nisnan v)) l in
  ndiv (nsum ok) (nofnat (length ok)).

(** metric.py 65-70: Metric.eval, for an arbitrary eval_per_query [f]. *)
Definition metric_eval (f : list N -> list N -> res N) (d : dataset N) (s : list N)
  : res (N * list N) :=
  do v <- foldM (fun acc t =>
            do x <- f (fst (snd (snd t))) (snd (snd (snd t)));
            py_set acc (Z.of_nat (fst t)) (nf32 x))
          (combine (seq 0 (length (metric_queries d s))) (metric_queries d s))
          (repeat nzero (n_queries d));
  Ok (nanmean v, v).

(** mse.py 59-64: MSE.eval indexes [detailed_scores] by the query id itself. *)
Definition mse_eval (cutoff : option Z) (d : dataset N) (s : list N) : res (N * list N) :=
  do v <- foldM (fun acc t =>
            do x <- mse_pq cutoff (fst (snd t)) (snd (snd t));
            py_set acc (fst t) (nf32 (ndiv x (nofnat (n_instances d)))))
          (metric_queries d s)
          (repeat nzero (n_queries d));
  Ok (nsum v, v).

End Metrics.
Arguments metric N : clear implicits.
