(** float32 arithmetic is IEEE 754: C92. *)
From Coq Require Import List ZArith Reals Lia Lra Bool SpecFloat.
From Verif Require Import Base Lists Num M_Float M_Ensemble S_Ensemble S_Loaders S_Rounding S_IEEE S_IEEE2 M_IEEE.
From Verif Require Import L_Ensemble L_Rounding L_Rounding2 L_IEEE L_IEEE2 L_IEEE3 L_IEEE4 L_IEEE5.
Import ListNotations.
Local Open Scope Z_scope.

(** C92: the signed ranks below 255 * 2^23 are the finite float32 values, zeros of both signs being one number. *)
Theorem C92_finite_values : forall x,
  (finite_value 24 128 x <-> exists k, stands x k) /\
  (forall k k', stands x k -> stands x k' -> k = k') /\
  (forall y k, stands x k -> stands y k -> same_number x y) /\
  (forall k, stands x k -> real_of x = real32 k).
Proof. exact (fun x => conj (stands_finite x) (conj (stands_unique x) (conj (stands_same x) (stands_real x)))). Qed.
Print Assumptions C92_finite_values.
Theorem C92_ranks_are_bit_patterns : forall k, Z.abs k < 255 * 2 ^ 23 -> stands (ieee k) k.
Proof. exact stands_ieee. Qed.
Print Assumptions C92_ranks_are_bit_patterns.

(** The operations of the model are those of IEEE 754, overflow included. *)
Theorem C92_operations : forall x y a b, stands x a -> stands y b ->
  result_of (nadd (n:=IEEE32) x y) (nadd (n:=F32N) a b) /\
  result_of (nsub (n:=IEEE32) x y) (nsub (n:=F32N) a b) /\
  result_of (nmul (n:=IEEE32) x y) (nmul (n:=F32N) a b) /\
  (b <> 0 -> result_of (ndiv (n:=IEEE32) x y) (ndiv (n:=F32N) a b)).
Proof. exact (fun x y a b H K => conj (ieee_add x y a b H K) (conj (ieee_sub x y a b H K) (conj (ieee_mul x y a b H K) (ieee_div x y a b H K)))). Qed.
Print Assumptions C92_operations.
Theorem C92_division_by_zero : forall x y a, stands x a -> stands y 0 ->
  ndiv (n:=IEEE32) x y = S754_nan /\ a = 0 \/ (exists s, ndiv (n:=IEEE32) x y = S754_infinity s) /\ a <> 0.
Proof. exact ieee_div_zero. Qed.
Print Assumptions C92_division_by_zero.
Theorem C92_comparisons : forall x y a b, stands x a -> stands y b ->
  nleb (n:=IEEE32) x y = nleb (n:=F32N) a b /\ nltb (n:=IEEE32) x y = nltb (n:=F32N) a b /\
  neqb (n:=IEEE32) x y = neqb (n:=F32N) a b.
Proof. exact ieee_comparisons. Qed.
Print Assumptions C92_comparisons.
Theorem C92_integers : forall z, result_of (nofZ (n:=IEEE32) z) (nofZ (n:=F32N) z).
Proof. exact ieee_integer. Qed.
Print Assumptions C92_integers.

(** Every format: the operations round the exact result to the nearest bit pattern. *)
Theorem C92_formats : forall p emax, 1 <= p -> p + 1 < emax -> forall s j s' j',
  0 <= j < (2 * emax - 1) * 2 ^ p -> 0 <= j' < (2 * emax - 1) * 2 ^ p ->
  let x := decode p emax s j in
  let y := decode p emax s' j' in
  let unit := 2 ^ (- emin (p + 1) emax) in
  let signed (s : bool) v := if s then - v else v in
  let n := signed s (fval p j) + signed s' (fval p j') in
  (n <> 0 -> SFadd (p + 1) emax x y = decode p emax (n <? 0) (fround p (Z.abs n) 1)) /\
  (n = 0 -> exists z, SFadd (p + 1) emax x y = S754_zero z) /\
  SFmul (p + 1) emax x y = decode p emax (xorb s s') (fround p (fval p j * fval p j') unit) /\
  (0 < j' -> SFdiv (p + 1) emax x y = decode p emax (xorb s s') (fround p (fval p j * unit) (fval p j'))) /\
  SFcompare x y = Some (signed s j ?= signed s' j').
Proof.
  exact (fun p emax P E s j s' j' H H' =>
    conj (proj1 (add_decode p emax P E s j s' j' H H')) (conj (proj2 (add_decode p emax P E s j s' j' H H'))
    (conj (mul_decode p emax P E s j s' j' H H')
    (conj (fun L => div_decode p emax P E s j s' j' H (conj L (proj2 H'))) (compare_decode p emax P E s j s' j' H H'))))).
Qed.
Print Assumptions C92_formats.

(** Conversion of a double, as in reading a number with sscanf "%lf" into a float. *)
Theorem C92_double_to_float : forall neg d, 0 <= d < 2047 * 2 ^ 52 ->
  to_float32 (bits64 neg d) = ieee_f32 (f32_of_rank neg (fround 23 (fval 52 d) (2 ^ 925))).
Proof. exact double_to_float. Qed.
Print Assumptions C92_double_to_float.

(** Scoring: the walk over the trees, and the score when nothing overflows. *)
Theorem C92_same_leaves : forall (row : list IEEE32) (row' : list F32N), Forall2 stands row row' ->
  forall (t : tree Z IEEE32) (t' : tree Z F32N), matching stands t t' ->
  fst (exit_leaf row t) = fst (exit_leaf row' t') /\ stands (snd (exit_leaf row t)) (snd (exit_leaf row' t')).
Proof. exact exit_leaf_ieee. Qed.
Print Assumptions C92_same_leaves.
Theorem C92_same_scores : forall (ws : list IEEE32) ts row (ws' : list F32N) ts' row',
  Forall2 stands row row' -> Forall2 stands ws ws' -> Forall2 (matching stands) ts ts' ->
  Forall in_range (tree_scores (N:=F32N) ws' ts' row') ->
  (forall k, in_range (ensemble_score (N:=F32N) (firstn k ws') (firstn k ts') row')) ->
  stands (ensemble_score (N:=IEEE32) ws ts row) (ensemble_score (N:=F32N) ws' ts' row').
Proof. exact score_ieee. Qed.
Print Assumptions C92_same_scores.
Local Open Scope R_scope.
Theorem C92_score_error : forall (e : ensemble IEEE32) ts ws X, encodes e ts ws -> (forall row, In row X -> covers row ts) ->
  Forall (finite_value 24 128) ws -> Forall (fun t => Forall (finite_value 24 128) (values t)) ts ->
  (forall row, In row X -> Forall (finite_value 24 128) row /\
     let n := length ts in (1 + roundoff) ^ n * ieee_mass ws ts row + INR n * (1 + roundoff) ^ n * tiny < 2 ^ 128) ->
  exists ys, basic_scoring e X = Ok ys /\
    Forall2 (fun row y => finite_value 24 128 y /\ Rabs (real_of y - ieee_exact ws ts row) <= ieee_error ws ts row) X ys.
Proof. exact C92_score_lemma. Qed.
Print Assumptions C92_score_error.
Local Open Scope Z_scope.

(** ** Examples *)
(** float32 bit patterns: 0.1, 0.2, 0.3, 1, 3, the largest value, the smallest. *)
Definition f (k : Z) : IEEE32 := bits32 false k.
Definition tenth := 1036831949. Definition fifth := 1045220557. Definition three_tenths := 1050253722.
Definition one := 1065353216. Definition three := 1077936128. Definition largest := 2139095039. Definition smallest := 1.
Example C92_example :
  nadd (f tenth) (f fifth) = f three_tenths /\ nadd (n:=F32N) tenth fifth = three_tenths /\
  ndiv (f one) (f three) = S754_finite false 11184811 (-25) /\ ndiv (f one) (f three) = f (ndiv (n:=F32N) one three) /\
  nadd (f largest) (f largest) = S754_infinity false /\ nadd (n:=F32N) largest largest = 2147483647 /\
  nmul (f smallest) (f tenth) = S754_zero false /\ nmul (bits32 true smallest : IEEE32) (f tenth) = S754_zero true /\
  nmul (n:=F32N) (- smallest) tenth = 0 /\
  nleb (S754_nan : IEEE32) (f one) = false /\ nleb (f one) (S754_nan : IEEE32) = false /\
  neqb (S754_zero true : IEEE32) (S754_zero false) = true.
Proof. repeat split; vm_compute; reflexivity. Qed.
Print Assumptions C92_example.

Definition stump : ensemble IEEE32 :=
  mkEns (N:=IEEE32) 1 3 [0] [f one] [1; -1; -1] [2; -1; -1] [f tenth; f one; f three] [0; -1; -1].
Definition stump_tree : tree Z IEEE32 := Node 0 0 (f tenth) (Leaf 1 (f one)) (Leaf 2 (f three)).
Example C92_scores : encodes stump [stump_tree] [f one] /\
  basic_scoring stump [[f tenth]; [f fifth]; [bits32 true largest]; [S754_nan]; [S754_infinity true]; [S754_infinity false]]
  = Ok [f one; f three; f one; f three; f one; f three].
Proof. split; [unfold encodes; cbn; repeat split; repeat constructor|vm_compute; reflexivity]. Qed.
Print Assumptions C92_scores.

(** Beyond the range the ranks and the float32 values part: the sum of three parts is finite
    among ranks and infinite in float32. *)
Theorem C92_overflow_refuted : exists x y z : Z,
  stands (f x) x /\ stands (f y) y /\ stands (bits32 true z) (- z) /\
  nadd (n:=F32N) (nadd (n:=F32N) x y) (- z) = x /\ nadd (nadd (f x) (f y)) (bits32 true z : IEEE32) = S754_infinity false.
Proof.
  exists largest, largest, largest.
  assert (S : stands (f largest) largest) by (exists false, largest; repeat split; vm_compute; congruence).
  split; [exact S|]. split; [exact S|]. split; [exists true, largest; repeat split; vm_compute; congruence|].
  split; vm_compute; reflexivity.
Qed.
Print Assumptions C92_overflow_refuted.
