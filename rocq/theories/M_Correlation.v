(** Model of metrics/kendall_tau.py 61-93 and metrics/spearman_rho.py 56-76, with Metric.eval
    (metrics/metric.py 65-70).

    Both eval_per_query methods return the correlation computed by SciPy, which is modelled from
    its source: kendalltau and spearmanr of scipy.stats (two arrays of numbers without NaN).
    A result [None] is NaN.  Pairs and ties are counted directly (SciPy counts them after
    sorting).  The keyword initial_lexsort (unused in SciPy, later removed) and the p-values are
    not modelled. *)
From Coq Require Import List ZArith Bool.
From Verif Require Import Base Num M_Dataset M_Metrics.
Import ListNotations.
Local Open Scope Z_scope.

Section Correlation.
Context {N : num}.

(** The pairs of rows, each once. *)
Fixpoint pairs {A} (l : list A) : list (A * A) := match l with [] => [] | a :: t => map (pair a) t ++ pairs t end.
Definition count_if {A} (p : A -> bool) (l : list A) : Z := Z.of_nat (length (filter p l)).
(** min(1., max(-1., v)) *)
Definition clip (v : N) : N :=
  let w := if nltb v (nofZ (-1)) then nofZ (-1) else v in if nltb none w then none else w.

(** scipy.stats.kendalltau(x, y).correlation: ValueError when the sizes differ, NaN when one of
    the two is constant (also with less than two rows). *)
Definition tied_fst (q : (N * N) * (N * N)) : bool := neqb (fst (fst q)) (fst (snd q)).
Definition tied_snd (q : (N * N) * (N * N)) : bool := neqb (snd (fst q)) (snd (snd q)).
Definition opposite (q : (N * N) * (N * N)) : bool :=
  (nltb (fst (fst q)) (fst (snd q)) && nltb (snd (snd q)) (snd (fst q))) || (nltb (fst (snd q)) (fst (fst q)) && nltb (snd (fst q)) (snd (snd q))).
Definition kendalltau (x y : list N) : res (option N) :=
  if (length x =? length y)%nat then
    let size := Z.of_nat (length x) in
    let ps := pairs (combine x y) in
    let dis := count_if opposite ps in
    let ntie := count_if (fun q => tied_fst q && tied_snd q) ps in
    let xtie := count_if tied_fst ps in
    let ytie := count_if tied_snd ps in
    let tot := size * (size - 1) / 2 in
    if (xtie =? tot) || (ytie =? tot) then Ok None
    else Ok (Some (clip (ndiv (ndiv (nofZ (tot - xtie - ytie + ntie - 2 * dis)) (nsqrt (nofZ (tot - xtie)))) (nsqrt (nofZ (tot - ytie))))))
  else Err ValueError.

(** scipy.stats.rankdata: average ranks. *)
Definition rankdata (l : list N) : list N :=
  map (fun a => nadd (nofZ (count_if (fun b => nltb b a) l)) (ndiv (nofZ (count_if (fun b => neqb b a) l + 1)) (nofZ 2))) l.
(** np.cov of two rows. *)
Definition cov (r q : list N) : N :=
  let mr := ndiv (nsum r) (nofnat (length r)) in let mq := ndiv (nsum q) (nofnat (length q)) in
  ndiv (nsum (map (fun p => nmul (nsub (fst p) mr) (nsub (snd p) mq)) (combine r q))) (nsub (nofnat (length r)) none).
Definition constant (l : list N) : bool := match l with [] => true | a :: _ => forallb (neqb a) l end.
(** scipy.stats.spearmanr(a, b).correlation *)
Definition spearmanr (a b : list N) : res (option N) :=
  if (length a =? length b)%nat then
    if (length a <=? 1)%nat || constant a || constant b then Ok None
    else let r := rankdata a in let q := rankdata b in
         Ok (Some (clip (ndiv (ndiv (cov r q) (nsqrt (cov r r))) (nsqrt (cov q q)))))
  else Err ValueError.

(** Metric.eval (metric.py 65-70): NaN queries are left out of the mean; NaN if all are. *)
Definition correlation_eval (f : list N -> list N -> res (option N)) (d : dataset N) (s : list N) : res (option N * list (option N)) :=
  do v <- mapM (fun t => f (fst (snd t)) (snd (snd t))) (metric_queries d s);
  let v := map (option_map nf32) v in
  let known := concat (map (fun o => match o with Some a => [a] | None => [] end) v) in
  Ok (match known with [] => None | _ => Some (ndiv (nsum known) (nofnat (length known))) end, v).
End Correlation.
