(** What the statistical analyses should compute. *)
From Coq Require Import List ZArith Bool Reals Permutation.
From Verif Require Import Base Num M_Dataset S_Dataset S_Ensemble S_Effectiveness M_Statistical.
Import ListNotations.
Local Open Scope Z_scope.

(** Arithmetic on reals with the rounding [r] after every operation (float64 without overflow). *)
Definition RF (r : R -> R) : Num.num :=
  mkNum R 0%R 1%R (fun a b => r (a + b)%R) (fun a b => r (a - b)%R) (fun a b => r (a * b)%R) (fun a b => r (a / b)%R)
        Rleb Rltb Reqb (fun z => r (IZR z)) (fun x => r (Rexp2 x)) (fun x => r (Rlog2 x)) (fun x => r (sqrt x)) (fun x n => r (x ^ n)%R)
        (fun _ => false) r.
(** A rounding keeps the order and is exact on the integers up to [n]. *)
Definition good_rounding (r : R -> R) (n : Z) : Prop :=
  (forall x y, (x <= y)%R -> (r x <= r y)%R) /\ forall z, 0 <= z <= n -> r (IZR z) = IZR z.
(** The mean as computed. *)
Definition computed_mean (r : R -> R) (sum : list R -> R) (l : list R) : R := r (sum l / r (INR (length l)))%R.

(** The randomization test: the positions selected are exchanged between the two systems. *)
Definition exchanged (sel : nat -> bool) (u v : list R) : list R :=
  map (fun p => if sel (fst p) then snd (snd p) else fst (snd p)) (combine (seq 0 (length u)) (combine u v)).
Definition gap (u v : list R) : R := (mean u - mean v)%R.
Definition share {A} (p : A -> bool) (l : list A) : R := (INR (length (filter p l)) / INR (length l))%R.
Definition better (a b : list R) : list R := if Rltb (mean a) (mean b) then b else a.
Definition worse (a b : list R) : list R := if Rltb (mean a) (mean b) then a else b.
(** Share of the draws whose gap is at least the observed one; with absolute values for two sides. *)
Definition one_sided (choice : nat -> nat -> bool) (n : nat) (u v : list R) : R :=
  share (fun i => Rleb (gap u v) (gap (exchanged (choice i) u v) (exchanged (choice i) v u))) (seq 0 n).
Definition two_sided (choice : nat -> nat -> bool) (n : nat) (u v : list R) : R :=
  share (fun i => Rleb (Rabs (gap u v)) (Rabs (gap (exchanged (choice i) u v) (exchanged (choice i) v u)))) (seq 0 n).

(** The rows of the queries of [T], and the other ones, in the order of the data set. *)
Definition rows_in {V} (T : list Z) (d : dataset V) := filter (fun r => memz T (fst r)) (rows d).
Definition rows_out {V} (T : list Z) (d : dataset V) := filter (fun r => negb (memz T (fst r))) (rows d).
Definition queries_out {V} (T : list Z) (d : dataset V) : list Z := filter (fun q => negb (memz T q)) (ds_qids d).
(** The algorithm is to be tested on the queries [T] after having been trained on all others: the sizes
    cut the training rows query by query. *)
Definition fold_of {V} (d : dataset V) (T : list Z) (c : call V) : Prop :=
  c_test c = map (fun r => fst (snd r)) (rows_in T d) /\
  c_X c = map (fun r => fst (snd r)) (rows_out T d) /\
  c_y c = map (fun r => snd (snd r)) (rows_out T d) /\
  rows_out T d = concat (map (fun q => query_rows q d) (queries_out T d)) /\
  c_sizes c = map (fun q => length (query_rows q d)) (queries_out T d).
(** The queries cut in at most [k] folds, none empty, none larger than n_queries / k rounded up. *)
Definition cut_in {V} (k : Z) (d : dataset V) (Ts : list (list Z)) : Prop :=
  Permutation (concat Ts) (ds_qids d) /\ Z.of_nat (length Ts) <= k /\
  Forall (fun T => T <> [] /\ (Z.of_nat (length T) - 1) * k < Z.of_nat (n_queries d)) Ts.
(** The scores of the rows of [T]. *)
Definition scores_in {A} (ids : list Z) (T : list Z) (scores : list A) : list A :=
  map snd (filter (fun p => memz T (fst p)) (combine ids scores)).

(** The algorithm returns one score for each test row. *)
Definition answers_all {N : Num.num} (algo : algorithm N) : Prop :=
  forall made c, exists v, algo made c = Ok v /\ length v = length (c_test c).

(** Bias, variance and error of the columns of a matrix around desired values. *)
Definition row_of (cols : list (list R)) (i : nat) : list R := map (fun c => nth i c 0%R) cols.
Definition squares (c : R) (l : list R) : list R := map (fun x => ((x - c) ^ 2)%R) l.
Definition over_rows (n : nat) (f : nat -> R) : R := mean (map f (seq 0 n)).
Definition error_of (cols : list (list R)) (target : list R) : R :=
  over_rows (length target) (fun i => mean (squares (nth i target 0%R) (row_of cols i))).
Definition bias_of (cols : list (list R)) (target : list R) : R :=
  over_rows (length target) (fun i => (mean (row_of cols i) - nth i target 0)^2)%R.
Definition variance_of (cols : list (list R)) (target : list R) : R :=
  over_rows (length target) (fun i => mean (squares (mean (row_of cols i)) (row_of cols i))).
