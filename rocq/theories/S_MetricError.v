(** Arithmetic with rounding errors, sums in any order, and the distance between values. *)
From Coq Require Import List ZArith Reals Permutation.
From Verif Require Import Base Num M_Dataset M_Metrics.
Import ListNotations.
Local Open Scope R_scope.

(** [z] is a rounding of [x], with relative error [u] and an absolute error [eta] for results
    that underflow; rounding does not change signs. *)
Definition rounded_up_to (u eta x z : R) : Prop :=
  Rabs (z - x) <= u * Rabs x + eta /\ (0 <= x -> 0 <= z) /\ (x <= 0 -> z <= 0).

(** Arithmetic whose operations round: [val] is the value of a number, [u] bounds the relative
    error of one operation (different operations, and the same operation on different
    arguments, may round differently: float32 and float64 mixed), [eta] is the error of
    underflow, counts up to [most] are represented exactly.  There is no overflow and no NaN. *)
Record float_like (N : num) (val : N -> R) (u eta : R) (most : nat) : Prop := {
  fl_u : 0 <= u <= / 4;
  fl_eta : 0 <= eta <= 1;
  fl_zero : val nzero = 0;
  fl_one : val none = 1;
  fl_add : forall a b, rounded_up_to u 0 (val a + val b) (val (nadd a b));
  fl_sub : forall a b, rounded_up_to u 0 (val a - val b) (val (nsub a b));
  fl_mul : forall a b, rounded_up_to u eta (val a * val b) (val (nmul a b));
  fl_div : forall a b, val b <> 0 -> rounded_up_to u eta (val a / val b) (val (ndiv a b));
  fl_leb : forall a b, nleb a b = Rleb (val a) (val b);
  fl_ltb : forall a b, nltb a b = Rltb (val a) (val b);
  fl_eqb : forall a b, neqb a b = Reqb (val a) (val b);
  fl_count : forall n, (n <= most)%nat -> val (nofnat n) = INR n;
  fl_exp2 : forall a, 0 <= val a -> rounded_up_to u 0 (Rexp2 (val a)) (val (nexp2 a)) /\ (val a = 0 -> val (nexp2 a) = 1);
  fl_log2 : forall a, 2 <= val a -> rounded_up_to u 0 (Rlog2 (val a)) (val (nlog2 a));
  fl_sqrt : forall a, 0 <= val a -> rounded_up_to u 0 (sqrt (val a)) (val (nsqrt a));
  fl_pow : forall a i, 0 <= val a <= 1 -> rounded_up_to u eta (val a ^ i) (val (npow a i));
  fl_nan : forall a : N, nisnan a = false;
  fl_f32 : forall a, rounded_up_to u eta (val a) (val (nf32 a))
}.

(** [x] is a sum of the numbers of [l], each passing through at most [k] additions. *)
Inductive sums {N : num} : nat -> list N -> N -> Prop :=
| sums_nil k : sums k [] nzero
| sums_one k x : sums k [x] x
| sums_add k l l' x x' : sums k l x -> sums k l' x' -> sums (S k) (l ++ l') (nadd x x')
| sums_perm k l l' x : Permutation l l' -> sums k l x -> sums k l' x.

(** [x] and [y] agree up to [k] roundings of relative error [u] and an absolute error [e]. *)
Definition growth (u : R) : R := / (1 - u).
Definition close (u : R) (k : nat) (e x y : R) : Prop :=
  0 <= x /\ 0 <= y /\ x <= growth u ^ k * (y + e) /\ y <= growth u ^ k * (x + e) /\ (y = 0 -> x = 0).

(** The same outcome, or the same exception. *)
Definition agree {A B} (r : A -> B -> Prop) (x : res A) (y : res B) : Prop :=
  match x, y with Ok a, Ok b => r a b | Err e, Err e' => e = e' | _, _ => False end.

(** A metric with its parameters read as real numbers. *)
Definition real_metric {N : num} (val : N -> R) (m : metric N) : metric RE :=
  match m with
  | Precision k t => Precision (N:=RE) k (val t)
  | PrecisionMax k => PrecisionMax (N:=RE) k
  | Recall n k t => Recall (N:=RE) (val n) k (val t)
  | MRR k t => MRR (N:=RE) k (val t)
  | MAP n k => MAP (N:=RE) (val n) k
  | DCG g k => DCG (N:=RE) g k
  | NDCGfresh n g k => NDCGfresh (N:=RE) (val n) g k
  | ERR k => ERR (N:=RE) k
  | Pfound k p => Pfound (N:=RE) k (val p)
  | RBP k t p => RBP (N:=RE) k (val t) (val p)
  | RMSE k => RMSE (N:=RE) k
  end.

(** Labels that mark no relevance at all or at least one. *)
Definition grade (v : R) : Prop := v = 0 \/ 1 <= v.

(** A data set with its features and labels read as real numbers. *)
Definition real_dataset {N : num} (val : N -> R) (d : dataset N) : dataset RE :=
  mkDataset (map (map val) (ds_X d)) (ds_nf d) (map val (ds_y d)) (ds_qids d) (ds_offs d).

(** [sum] adds the numbers of an array in some order, with at most [D n] additions on the way
    of each of [n] numbers. *)
Definition summation {N : num} (sum : list N -> N) (D : nat -> nat) : Prop :=
  (forall l, sums (D (length l)) l (sum l)) /\ (forall a b, (a <= b)%nat -> (D a <= D b)%nat).

(** The two sorts rank alike, and return a position for every score. *)
Definition ranks_alike {N : num} (val : N -> R) (argsort : list N -> list nat) (rargsort : list R -> list nat) : Prop :=
  (forall l, rargsort (map val l) = argsort l) /\ (forall l, length (argsort l) = length l).

(** Sizes of the queries of a data set with the scores [s]. *)
Definition sizes_within {N : num} (n : nat) (d : dataset N) (s : list N) : Prop :=
  forall t, In t (metric_queries d s) -> length (fst (snd t)) = length (snd (snd t)) /\ (length (fst (snd t)) <= n)%nat.

(** For each metric, on a query of [n] documents: the number of roundings, and the absolute
    error of the underflows. *)
Definition steps {N : num} (D : nat -> nat) (m : metric N) (n : nat) : nat :=
  match m with
  | Precision _ _ | PrecisionMax _ | Recall _ _ _ => 1
  | MRR _ _ => 2
  | MAP _ _ => n + 2
  | DCG _ _ => 6 + D n
  | NDCGfresh _ _ _ => 14 + 2 * D n
  | ERR _ => 3 * n
  | Pfound _ _ => 6 * n + 1
  | RBP _ _ _ | RMSE _ => 4 + D n
  end.
Definition lost {N : num} (eta : R) (m : metric N) (n : nat) : R :=
  match m with
  | Precision _ _ | PrecisionMax _ | Recall _ _ _ | MRR _ _ => eta
  | MAP _ _ => INR (n + 1) * eta
  | DCG _ _ => INR n * eta
  | NDCGfresh _ _ _ => eta + INR n * INR (n + 1) * eta
  | ERR _ => INR n * INR n * eta
  | Pfound _ _ => INR n * (INR n + 4) * eta
  | RBP _ _ _ => eta + INR n * (eta + eta)
  | RMSE _ => sqrt (INR n * eta)
  end.

(** Parameters in their ranges, graded labels where the metric is graded, and underflow that is
    small against the least gain.  ERR and Pfound subtract utilities from 1, so they count
    errors in the larger unit [v]: the relative error times the largest gain. *)
Definition suitable {N : num} (val : N -> R) (u v eta : R) (D : nat -> nat) (m : metric N) (y : list N) : Prop :=
  let graded := Forall (fun x => grade (val x)) y in
  let cascade := graded /\ forall top, nmax y = Ok top ->
    Rexp2 (val top) * (growth u ^ 10 - 1) <= v /\ growth u ^ 9 * eta * (Rexp2 (val top) * INR (length y)) <= u in
  match m with
  | Precision _ _ | PrecisionMax _ | MRR _ _ | RMSE _ => True
  | Recall r _ _ | MAP r _ => 0 <= val r
  | DCG _ _ => graded
  | NDCGfresh r _ _ => 0 <= val r /\ graded /\ growth u ^ (6 + D (length y)) * (INR (length y) * eta) <= u * / INR (length y + 1)
  | ERR _ => cascade
  | Pfound _ p => 0 <= val p <= 1 /\ cascade /\ INR (length y) * eta <= 1
  | RBP _ _ p => 0 <= val p <= 1
  end.
