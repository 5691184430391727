(** Specification vocabulary for the metrics. *)
From Coq Require Import List ZArith Reals Lia Bool Permutation Sorted.
From Verif Require Import Base Num M_Metrics.
Import ListNotations.

(** [idx] lists all the positions of [s] by non-decreasing value. *)
Definition sorts {N : num} (s : list N) (idx : list nat) : Prop :=
  Permutation idx (seq 0 (length s)) /\
  StronglySorted (fun i j => forall a b, nth_error s i = Some a -> nth_error s j = Some b ->
                                         nleb a b = true) idx.

(** A correct (not necessarily stable) argsort. *)
Definition sorting {N : num} (argsort : list N -> list nat) : Prop := forall s, sorts s (argsort s).

(** An argsort whose result only depends on the comparisons of the keys. *)
Definition comparison_based {N : num} (argsort : list N -> list nat) : Prop :=
  forall s s' : list N, length s = length s' ->
    (forall i j a b a' b', nth_error s i = Some a -> nth_error s j = Some b ->
       nth_error s' i = Some a' -> nth_error s' j = Some b' -> nleb a b = nleb a' b') ->
    argsort s = argsort s'.

(** A concrete stable argsort: insertion sort of the positions by key. *)
Definition stable_argsort {N : num} (s : list N) : list nat :=
  map snd (isort (fun p q : N * nat => nleb (fst p) (fst q)) (combine s (seq 0 (length s)))).

(** Labels by decreasing score: what a user sees in the result list. *)
Definition ranked {N : num} (argsort : list N -> list nat) (y s : list N) : list N :=
  map (fun i => nth i y nzero) (rev (argsort s)).

(** Number of rows retrieved with a given cutoff (Python slice [:k]). *)
Definition retrieved (cutoff : option Z) (n : nat) : nat :=
  match cutoff with
  | None => n
  | Some k => if (k <? 0)%Z then n - Z.to_nat (- k) else Nat.min (Z.to_nat k) n
  end.

(** No two equal scores. *)
Definition no_ties {N : num} (s : list N) : Prop :=
  forall i j a b, nth_error s i = Some a -> nth_error s j = Some b ->
    nleb a b = true -> nleb b a = true -> i = j.

(** The metrics that only look at the ranking. *)
Definition is_ranking {N : num} (m : metric N) : bool :=
  match m with RMSE _ => false | _ => true end.

(** Replace the cutoff of a metric. *)
Definition with_cutoff {N : num} (k : option Z) (m : metric N) : metric N :=
  match m with
  | Precision _ t => Precision k t
  | PrecisionMax _ => PrecisionMax k
  | Recall n _ t => Recall n k t
  | MRR _ t => MRR k t
  | MAP n _ => MAP n k
  | DCG g _ => DCG g k
  | NDCGfresh n g _ => NDCGfresh n g k
  | ERR _ => ERR k
  | Pfound _ p => Pfound k p
  | RBP _ t p => RBP k t p
  | RMSE _ => RMSE k
  end.

(** The metrics that only look at the top of the ranking. *)
Definition top_only {N : num} (m : metric N) : bool :=
  match m with
  | Precision _ _ | MRR _ _ | DCG _ _ | RBP _ _ _ => true
  | _ => false
  end.

(** Sum of f 0 ... f (n-1). *)
Fixpoint Rsum (f : nat -> R) (n : nat) : R :=
  match n with O => 0%R | S n' => (Rsum f n' + f n')%R end.

(** Number of i < n with p i. *)
Fixpoint num_of (p : nat -> bool) (n : nat) : nat :=
  match n with O => O | S n' => num_of p n' + if p n' then 1 else 0 end.

(** Product of f 0 ... f (n-1). *)
Fixpoint Rprod (f : nat -> R) (n : nat) : R :=
  match n with O => 1%R | S n' => (Rprod f n' * f n')%R end.

(** Label at position [i] of the ranking (exact arithmetic). *)
Definition lab (argsort : list RE -> list nat) (y s : list RE) (i : nat) : RE :=
  nth i (ranked argsort y s) 0%R.

(** Gain of a label and DCG of the first [K] positions. *)
Definition gainR (g : gain_kind) (v : R) : R := match g with Flat => v | _ => (Rpower 2 v - 1)%R end.
Definition dcgR (g : gain_kind) (l : nat -> R) (K : nat) : R :=
  Rsum (fun i => gainR g (l i) / (ln (INR (i + 2)) / ln 2))%R K.

(** Probability that a row with label [v] satisfies the user when the best label is [m]. *)
Definition satisfy (m v : R) : R := ((Rpower 2 v - 1) / Rpower 2 m)%R.

(** Sum of squared errors. *)
Definition sse (y s : list R) : R :=
  fold_right Rplus 0%R (map (fun q => ((fst q - snd q) * (fst q - snd q))%R) (combine y s)).
