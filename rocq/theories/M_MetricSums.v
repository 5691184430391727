(** rankeval/metrics/*.py with the order of the additions of np.sum and np.nanmean left open.

    M_Metrics.v adds from left to right ([nsum]); NumPy adds pairwise and with several
    accumulators.  Here the sum of an array is any function [sum]; with [sum := nsum] these
    definitions are those of M_Metrics.v (C89_sequential).  The loops written in Python
    (map.py, err.py, pfound.py) add from left to right and are taken from M_Metrics.v. *)
From Coq Require Import List ZArith Bool.
From Verif Require Import Base Num M_Dataset M_Metrics.
Import ListNotations.

Section Sums.
Context {N : num}.
Variable sum : list N -> N.
Variable argsort : list N -> list nat.

(** dcg.py 65-99. *)
Definition dcg_by (g : gain_kind) (cutoff : option Z) (y s : list N) : res N :=
  let idx := order argsort cutoff s in
  match g with
  | OtherImpl => Err UnboundLocalError
  | _ =>
    do l <- take y idx;
    Ok (sum (map (fun p => ndiv (gain g (snd p)) (discount (fst p)))
                 (combine (seq 0 (length l)) l)))
  end.

(** ndcg.py 99-135 on an object on which eval was never called. *)
Definition ndcg_by (norel : N) (g : gain_kind) (cutoff : option Z) (y s : list N) : res N :=
  do d <- dcg_by g cutoff y s;
  do i <- dcg_by g cutoff y y;
  Ok (ndcg_of norel d i).

(** rbp.py 94-121. *)
Definition rbp_by (cutoff : option Z) (thr p : N) (y s : list N) : res N :=
  do l <- take y (order argsort cutoff s);
  Ok (nmul (nsub none p)
           (sum (map (fun q => nmul (if nleb thr (snd q) then none else nzero)
                                    (npow p (fst q)))
                     (combine (seq 0 (length l)) l)))).

(** mse.py 66-91. *)
Definition mse_by (cutoff : option Z) (y s : list N) : res N :=
  match cutoff with
  | Some _ =>
      let idx := order argsort cutoff s in
      do ly <- take y idx;
      do ls <- take s idx;
      Ok (sum (map (fun q => sq (nsub (fst q) (snd q))) (combine ly ls)))
  | None =>
      if negb (Nat.eqb (length y) (length s)) then Err ValueError
      else Ok (sum (map (fun q => sq (nsub (fst q) (snd q))) (combine y s)))
  end.

(** rmse.py 60-81. *)
Definition rmse_by (cutoff : option Z) (y s : list N) : res N :=
  do m <- mse_by cutoff y s; Ok (nsqrt m).

Definition per_query_by (m : metric N) (y s : list N) : res N :=
  match m with
  | DCG g k => dcg_by g k y s
  | NDCGfresh n g k => ndcg_by n g k y s
  | RBP k t p => rbp_by k t p y s
  | RMSE k => rmse_by k y s
  | _ => eval_per_query argsort m y s
  end.

(** np.nanmean of a float32 vector. *)
Definition nanmean_by (l : list N) : N :=
  let ok := filter (fun v => negb (nisnan v)) l in
  ndiv (sum ok) (nofnat (length ok)).

(** metric.py 65-70. *)
Definition eval_by (f : list N -> list N -> res N) (d : dataset N) (s : list N)
  : res (N * list N) :=
  do v <- foldM (fun acc t =>
            do x <- f (fst (snd (snd t))) (snd (snd (snd t)));
            py_set acc (Z.of_nat (fst t)) (nf32 x))
          (combine (seq 0 (length (metric_queries d s))) (metric_queries d s))
          (repeat nzero (n_queries d));
  Ok (nanmean_by v, v).

(** mse.py 59-64. *)
Definition mse_eval_by (cutoff : option Z) (d : dataset N) (s : list N) : res (N * list N) :=
  do v <- foldM (fun acc t =>
            do x <- mse_by cutoff (fst (snd t)) (snd (snd t));
            py_set acc (fst t) (nf32 (ndiv x (nofnat (n_instances d)))))
          (metric_queries d s)
          (repeat nzero (n_queries d));
  Ok (sum v, v).
End Sums.
