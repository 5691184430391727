(** Property C95 (sizes computed in double precision). *)
From Coq Require Import List ZArith QArith Lia Bool Reals Permutation SpecFloat.
From Verif Require Import Base Lists Num M_Text M_IEEE S_IEEE S_IEEE2 M_Svmlight M_Dataset S_Dataset M_Ensemble M_Effectiveness M_Statistical M_Loaders.
From Verif Require Import L_Dataset2 M_Sizes S_Sizes L_Sizes L_Sizes2 L_Sizes3.
Import ListNotations.
Local Open Scope Z_scope.

(** ** Quotients *)
Theorem C95_quotients : forall n k, 0 <= n < 2 ^ 53 -> 0 < k <= 2 ^ 53 ->
  (do q <- true_div n k; floor_int q) = Ok (n / k) /\ (do q <- true_div n k; trunc_int q) = Ok (n / k) /\
  (do q <- float_div n k; ceil_int q) = Ok (- ((- n) / k)).
Proof. intros n k N K. exact (conj (floor_quotient n k N K) (conj (trunc_quotient n k N K) (ceil_quotient n k N K))). Qed.
Print Assumptions C95_quotients.
Theorem C95_folds : forall n_folds (qids : list Z), Z.of_nat (length qids) < 2 ^ 53 -> Z.of_nat n_folds <= 2 ^ 53 ->
  kfold_qids_double n_folds qids = kfold_qids n_folds qids.
Proof. exact folds. Qed.
Print Assumptions C95_folds.
Theorem C95_chunks : forall (N : num) notebook (algo : algorithm N) d k shuffled made, Z.of_nat (n_queries d) < 2 ^ 53 -> 0 <= k <= 2 ^ 53 ->
  kfold_scoring_double notebook algo d k shuffled made = kfold_scoring notebook algo d k shuffled made.
Proof. exact (@chunked). Qed.
Print Assumptions C95_chunks.
Theorem C95_columns : forall (V : Type) (F : fmt V) f,
  (forall st, parse_file F f = Ok st -> Z.of_nat (length (l_data st)) < 2 ^ 53 /\ Z.of_nat (length (l_labels st)) <= 2 ^ 53) ->
  load_svmlight_double F f = load_svmlight_file F f.
Proof. exact (@columns). Qed.
Print Assumptions C95_columns.
Theorem C95_catboost_nodes : forall (N : num) junk (nodes : list (cnode (N:=N))), Forall (fun c => 0 <= c_tree c) nodes ->
  (forall c, cat_count junk nodes = Ok c -> 0 <= snd c < 2 ^ 53 /\ fst c <= 2 ^ 53) ->
  cat_load_double junk nodes = cat_load junk nodes.
Proof. exact (@cat_nodes). Qed.
Print Assumptions C95_catboost_nodes.
Example C95_quotient_example :
  fold_size 10 3 = Ok 3 /\ chunk_size 10 3 = Ok 4 /\ column_count 12 4 = Ok 3 /\ column_count 13 4 = Err ValueError /\ nodes_per_tree 14 2 = Ok 7 /\
  fold_size (2 ^ 53 - 1) 3 = Ok 3002399751580330 /\ fold_size 5 0 = Err ZeroDivisionError /\
  kfold_qids_double 2 [11; 12; 13; 14; 15] = kfold_qids 2 [11; 12; 13; 14; 15] /\ column_count 3 0 = Err ZeroDivisionError.
Proof. repeat (apply conj || (vm_compute; reflexivity)). Qed.
(** Beyond 2^53 the quotient is rounded up to the next integer. *)
Theorem C95_large_quotient_refuted : fold_size (2 ^ 53 + 3) 2 = Ok ((2 ^ 53 + 3) / 2 + 1).
Proof. vm_compute. reflexivity. Qed.
Print Assumptions C95_large_quotient_refuted.

(** ** The parts of a split *)
Theorem C95_split_sizes : forall (t v : IEEE64) n, finite_value 53 1024 t -> finite_value 53 1024 v -> Z.of_nat n <= 2 ^ 53 ->
  nltb (n:=IEEE64) t nzero = false -> nltb (n:=IEEE64) none t = false -> nltb (n:=IEEE64) none (nadd (n:=IEEE64) t v) = false ->
  nltb (n:=IEEE64) v nzero = false ->
  exists tq vq, split_sizes_double t v n = Ok (tq, vq, Z.of_nat n - tq - vq) /\
    0 <= tq <= Z.of_nat n /\ 0 <= vq <= Z.of_nat n /\
    (Rabs (IZR tq - real_of t * INR n) <= / 2 + / 2 ^ 53 * (real_of t * INR n))%R /\
    (Rabs (IZR vq - real_of v * INR n) <= / 2 + / 2 ^ 53 * (real_of v * INR n))%R.
Proof. exact sizes_real. Qed.
Print Assumptions C95_split_sizes.
Theorem C95_partition : forall (V : Type) nf (X : list (list V)) y ids d (t v : IEEE64) perm,
  built nf X y ids d -> Permutation perm (ds_qids d) -> Z.of_nat (n_queries d) <= 2 ^ 53 ->
  finite_value 53 1024 t -> finite_value 53 1024 v ->
  nltb (n:=IEEE64) t nzero = false -> nltb (n:=IEEE64) none t = false -> nltb (n:=IEEE64) none (nadd (n:=IEEE64) t v) = false ->
  nltb (n:=IEEE64) v nzero = false ->
  exists tq vq, 0 <= tq <= Z.of_nat (n_queries d) /\ 0 <= vq <= Z.of_nat (n_queries d) /\
    (Rabs (IZR tq - real_of t * INR (n_queries d)) <= / 2 + / 2 ^ 53 * (real_of t * INR (n_queries d)))%R /\
    (Rabs (IZR vq - real_of v * INR (n_queries d)) <= / 2 + / 2 ^ 53 * (real_of v * INR (n_queries d)))%R /\
    (tq + vq < Z.of_nat (n_queries d) -> exists r, split_double t v perm d = Ok r /\
      let '(tr, vl, te) := r in
      Permutation (concat (map rows (split_parts r))) (filter (fun r => 0 <=? fst r) (rows d)) /\
      (forall p, In p (split_parts r) -> whole_part d p) /\
      (Forall (fun q => 0 <= q) ids ->
         Z.of_nat (n_queries tr) = tq /\
         (forall v, vl = Some v -> Z.of_nat (n_queries v) = vq) /\
         Z.of_nat (n_queries te) = Z.of_nat (n_queries d) - tq - vq)) /\
    (tq + vq = Z.of_nat (n_queries d) -> (0 < n_queries d)%nat -> Forall (fun q => 0 <= q) ids ->
      exists tr vl te, split_double t v perm d = Ok (tr, vl, te) /\ rows te = rows d).
Proof. exact (@partition). Qed.
Print Assumptions C95_partition.
Theorem C95_decimal_size : forall c d n, 0 <= c <= d -> 0 < d -> 0 <= n -> d * n < 2 ^ 50 -> d < 2 ^ 50 -> n < 2 ^ 50 -> no_tie c d n ->
  exists z, round_int (nmul (n:=IEEE64) (ratio c d) (nofZ n)) = Ok z /\ 2 * Z.abs (z * d - c * n) < d.
Proof. exact decimal_size. Qed.
Print Assumptions C95_decimal_size.
Theorem C95_decimals : forall (V : Type) c1 (p1 : positive) c2 (p2 : positive) perm (d : dataset V),
  0 <= c1 -> 0 <= c2 -> ((c1 # p1) + (c2 # p2) <= 1)%Q ->
  Zpos p1 * Z.of_nat (n_queries d) < 2 ^ 50 -> Zpos p2 * Z.of_nat (n_queries d) < 2 ^ 50 -> Zpos p1 < 2 ^ 50 -> Zpos p2 < 2 ^ 50 ->
  no_tie c1 (Zpos p1) (Z.of_nat (n_queries d)) -> no_tie c2 (Zpos p2) (Z.of_nat (n_queries d)) ->
  split_double (ratio c1 (Zpos p1)) (ratio c2 (Zpos p2)) perm d = split (c1 # p1) (c2 # p2) perm d.
Proof. exact (@decimals). Qed.
Print Assumptions C95_decimals.

Definition ten_queries : res (dataset Z) := ds_init 1 (map (fun i => [Z.of_nat i]) (seq 0 10)) (repeat 1 10) (map Z.of_nat (seq 1 10)).
Example C95_decimals_example :
  match ten_queries with
  | Ok d => split_double (ratio 7 10) (ratio 2 10) [3; 1; 4; 10; 5; 9; 2; 6; 8; 7] d = split (7 # 10) (2 # 10) [3; 1; 4; 10; 5; 9; 2; 6; 8; 7] d /\
            (do r <- split_double (ratio 7 10) (ratio 2 10) [3; 1; 4; 10; 5; 9; 2; 6; 8; 7] d; Ok (map n_queries (split_parts r))) = Ok [7; 2; 1]%nat /\
            no_tie 7 10 (Z.of_nat (n_queries d)) /\ no_tie 2 10 (Z.of_nat (n_queries d))
  | Err _ => False
  end.
Proof. vm_compute. repeat split; discriminate. Qed.
(** 0.7 * 10 is 7.000000000000000 although the double nearest to 0.7 lies below it. *)
Example C95_sizes_example : split_sizes_double (ratio 7 10) (ratio 3 10) 10 = Ok (7, 3, 0) /\ split_sizes_double (ratio 1 3) (ratio 1 3) 7 = Ok (2, 2, 3).
Proof. split; vm_compute; reflexivity. Qed.

(** A tie of the decimals is not one of the doubles: 0.575 of 100 queries are 57, half up or half
    to even 58; the sizes of the rational model differ. *)
Theorem C95_tie_refuted : split_sizes_double (ratio 575 1000) (ratio 0 1) 100 = Ok (57, 0, 43) /\ split_sizes (575 # 1000) 0 100 = Ok (58, 0, 42).
Proof. split; vm_compute; reflexivity. Qed.
Print Assumptions C95_tie_refuted.
(** Two doubles that pass the check of line 196 although their exact sum exceeds one. *)
Theorem C95_exact_sum_refuted : nltb (n:=IEEE64) none (nadd (n:=IEEE64) (ratio 7 100) (ratio 93 100)) = false /\
  match fraction (ratio 7 100), fraction (ratio 93 100) with (a, b), (c, d) => b * d < a * d + c * b end.
Proof. split; vm_compute; reflexivity. Qed.
Print Assumptions C95_exact_sum_refuted.
(** A missing value passes the checks; int() then fails with another error than the one announced. *)
Theorem C95_nan_refuted : split_sizes_double S754_nan (ratio 1 10) 10 = Err ValueError /\ split_sizes_double (ratio 11 10) (ratio 1 10) 10 = Err PlainException.
Proof. split; vm_compute; reflexivity. Qed.
Print Assumptions C95_nan_refuted.
(** A negative size of the validation part passes them too: the slice counts from the end. *)
Theorem C95_negative_refuted : split_sizes_double (ratio 5 10) (ratio (-2) 10) 10 = Ok (5, -2, 7).
Proof. vm_compute. reflexivity. Qed.
Print Assumptions C95_negative_refuted.
