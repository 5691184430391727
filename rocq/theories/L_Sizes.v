(** Proofs: integers through doubles. *)
From Coq Require Import List ZArith Lia Bool SpecFloat.
From Verif Require Import Base Num M_Float L_Float M_IEEE S_IEEE L_IEEE L_IEEE2 L_IEEE3 L_IEEE4 L_Doubles M_Sizes.
Import ListNotations.
Local Open Scope Z_scope.

Definition unit64 : Z := 2 ^ 1074.
Lemma unit_pos : 0 < unit64. Proof. reflexivity. Qed.
Notation T64 := (top 52 1024).
Lemma p52 : 1 <= 52. Proof. lia. Qed.
Lemma e1024 : 52 + 1 < 1024. Proof. lia. Qed.

(** ** Conversions do not depend on the fraction *)
Definition scaling (f : Z -> Z -> Z) : Prop := forall a b a' b', 0 < b -> 0 < b' -> a * b' = a' * b -> f a b = f a' b'.
Lemma floor_scaling : scaling Z.div. Proof. exact div_ratio. Qed.
Lemma ceil_scaling : scaling (fun a b => - ((- a) / b)).
Proof. intros a b a' b' B B' E. f_equal. apply div_ratio; lia. Qed.
Lemma signs a b a' b' : 0 < b -> 0 < b' -> a * b' = a' * b -> Z.sgn a = Z.sgn a' /\ Z.abs a * b' = Z.abs a' * b.
Proof.
  intros B B' E. split.
  - assert (S : Z.sgn (a * b') = Z.sgn (a' * b)) by congruence. rewrite !Z.sgn_mul, (Z.sgn_pos b), (Z.sgn_pos b') in S by assumption. lia.
  - assert (S : Z.abs (a * b') = Z.abs (a' * b)) by congruence. rewrite !Z.abs_mul, (Z.abs_eq b), (Z.abs_eq b') in S by lia. exact S.
Qed.
Lemma quot_scaling : scaling Z.quot.
Proof.
  intros a b a' b' B B' E. rewrite !Z.quot_div by lia. rewrite (Z.abs_eq b), (Z.abs_eq b'), (Z.sgn_pos b), (Z.sgn_pos b') by lia.
  destruct (signs a b a' b' B B' E) as (S & A). rewrite S, (div_ratio (Z.abs a) b (Z.abs a') b') by assumption. reflexivity.
Qed.
Lemma round_scaling : scaling (fun a b => Z.sgn a * round_even (Z.abs a) b).
Proof.
  intros a b a' b' B B' E. destruct (signs a b a' b' B B' E) as (S & A). rewrite S, (round_even_ratio (Z.abs a) b (Z.abs a') b') by assumption. reflexivity.
Qed.
Lemma integer_decode f s j : scaling f -> 0 <= j < T64 ->
  integer_by f (decode 52 1024 s j) = Ok (f (cond_Zopp s (fval 52 j)) unit64).
Proof.
  intros F J. destruct (decode_cases 52 1024 p52 e1024 s j J) as [(-> & D)|(m & e & K & D & (S0 & _) & V & _)]; rewrite D; unfold integer_by, fraction; cbn [fst snd].
  - rewrite fval_0 by lia. f_equal. apply F; [reflexivity|apply unit_pos|destruct s; reflexivity].
  - change (emin (52 + 1) 1024) with (-1074) in *. f_equal. apply F; [apply Z.pow_pos_nonneg; lia|apply unit_pos|].
    rewrite V. unfold unit64. destruct (Z.le_gt_cases 0 e) as [E|E].
    + rewrite (Z.max_r 0 e), (Z.max_l 0 (- e)) by lia. replace (e - -1074) with (e + 1074) by lia. rewrite Z.pow_add_r by lia. change (2 ^ 0) with 1. destruct s; cbn [cond_Zopp]; ring.
    + rewrite (Z.max_l 0 e), (Z.max_r 0 (- e)) by lia. replace 1074 with ((e - -1074) + - e) at 1 by lia. rewrite Z.pow_add_r by lia. change (2 ^ 0) with 1. destruct s; cbn [cond_Zopp]; ring.
Qed.

(** ** Integers *)
Lemma int_rank z : 0 <= z <= 2 ^ 53 -> exists k, 0 <= k < T64 /\ fval 52 k = z * unit64.
Proof.
  intros Z0. assert (E : exists k, 0 <= k /\ fval 52 k = z * 2 ^ 1074).
  { destruct (Z.eq_dec z (2 ^ 53)) as [->|N].
    - destruct (fval_every 52 (2 ^ 52) 1075) as (k & K & F); [lia|split; [discriminate|reflexivity]|lia|]. exists k. split; [exact K|]. rewrite F. reflexivity.
    - apply fval_every; lia. }
  destruct E as (k & K & F). exists k. split; [|exact F]. split; [exact K|]. apply (fval_lt_inv 52 ltac:(lia)); [discriminate| |exact K].
  rewrite F. apply Z.le_lt_trans with (2 ^ 53 * 2 ^ 1074); [apply Z.mul_le_mono_nonneg_r; lia|]. vm_compute. reflexivity.
Qed.
Lemma int_decode z k : 0 <= z -> 0 <= k -> fval 52 k = z * unit64 -> nofZ (n:=IEEE64) z = decode 52 1024 false k.
Proof.
  intros Z0 K F. cbn [nofZ IEEE64 IEEE]. change 53 with (52 + 1). rewrite (normalize_exact 52 1024 p52 e1024) by (vm_compute; discriminate).
  destruct (Z.eqb_spec z 0) as [->|NZ].
  - assert (k = 0) as ->. { rewrite Z.mul_0_l in F. destruct (Z.eq_dec k 0); [assumption|]. pose proof (fval_pos 52 p52 k ltac:(lia)). lia. }
    rewrite (decode_0 52 1024) by lia. reflexivity.
  - destruct (Z.ltb_spec z 0); [lia|]. f_equal. change (0 - emin (52 + 1) 1024) with 1074. rewrite Z.abs_eq by exact Z0. fold unit64. rewrite <- F.
    apply fround_fval; lia.
Qed.
Lemma fround64_nonneg a b : 0 <= a -> 0 < b -> 0 <= fround 52 a b.
Proof. intros A B. apply (fround_ge 52 ltac:(lia) a b 0 A B); [lia|]. rewrite fval_0 by lia. lia. Qed.
Lemma quotient_range n k : 0 <= n <= 2 ^ 53 -> 0 < k -> 0 <= fround 52 (n * unit64) k < T64.
Proof.
  intros N K. pose proof unit_pos. split; [apply fround64_nonneg; nia|]. destruct (int_rank n N) as (r & R & F).
  apply Z.le_lt_trans with r; [|lia]. apply fround_le; [lia|nia|lia|lia|]. rewrite F. nia.
Qed.
Lemma true_div_decode n k : 0 <= n -> 0 < k -> true_div n k = Ok (decode 52 1024 false (fround 52 (n * unit64) k)).
Proof.
  intros N K. unfold true_div. destruct (Z.eqb_spec k 0); [lia|]. destruct (Z.ltb_spec n 0); [lia|]. destruct (Z.ltb_spec k 0); [lia|].
  rewrite !Z.abs_eq by lia. reflexivity.
Qed.
Lemma ratio_decode n k : 0 <= n <= 2 ^ 53 -> 0 < k <= 2 ^ 53 -> ndiv (n:=IEEE64) (nofZ n) (nofZ k) = decode 52 1024 false (fround 52 (n * unit64) k).
Proof.
  intros N K. destruct (int_rank n N) as (r & R & F). destruct (int_rank k ltac:(lia)) as (q & Q & G). pose proof unit_pos as U.
  rewrite (int_decode n r), (int_decode k q) by (assumption || lia). cbn [ndiv IEEE64 IEEE]. change 53 with (52 + 1).
  assert (Q0 : q <> 0). { intros ->. rewrite fval_0 in G by lia. nia. }
  rewrite (div_decode 52 1024 p52 e1024) by lia. f_equal. change (2 ^ - emin (52 + 1) 1024) with unit64. rewrite F, G.
  apply fround_ratio; [nia|lia|]. ring.
Qed.
(** ** Quotients of integers *)
Section Quotient.
Variables n k : Z.
Hypothesis N : 0 <= n < 2 ^ 53.
Hypothesis K : 0 < k <= 2 ^ 53.
Notation v := (fval 52 (fround 52 (n * unit64) k)).
Lemma quotient_error : 2 ^ 53 * Z.abs (v * k - n * unit64) <= n * unit64.
Proof using N K.
  pose proof unit_pos as U. destruct (Z.eq_dec n 0) as [->|NZ].
  - rewrite Z.mul_0_l, fround_zero, fval_0 by lia. rewrite Z.mul_0_l. reflexivity.
  - apply (fround_error 52 ltac:(lia) (n * unit64) k ltac:(nia) ltac:(lia)).
    apply Z.le_trans with (2 ^ 52 * 2 ^ 53); [nia|]. apply Z.le_trans with (1 * unit64); [vm_compute; discriminate|nia].
Qed.
Lemma quotient_floor : v / unit64 = n / k.
Proof using N K.
  pose proof unit_pos as U. pose proof quotient_error as E. pose proof (Z.div_mod n k ltac:(lia)) as D. pose proof (Z.mod_pos_bound n k ltac:(lia)) as B.
  set (m := n / k) in *. set (r := n mod k) in *. assert (M0 : 0 <= m) by (apply Z.div_pos; lia).
  destruct (int_rank m) as (rm & R1 & F). { split; [exact M0|]. nia. }
  assert (L : m * unit64 <= v).
  { rewrite <- F. apply fval_le; [lia|lia|]. apply fround_ge; [lia|nia|lia|lia|]. rewrite F. nia. }
  assert (H : v < (m + 1) * unit64).
  { destruct (Z.lt_ge_cases v ((m + 1) * unit64)) as [|G]; [assumption|exfalso].
    assert (unit64 <= v * k - n * unit64) by nia. nia. }
  symmetry. apply Z.div_unique with (v - m * unit64); lia.
Qed.
Lemma quotient_ceil : - ((- v) / unit64) = - ((- n) / k).
Proof using N K.
  pose proof unit_pos as U. pose proof quotient_error as E. pose proof (Z.div_mod (- n) k ltac:(lia)) as D. pose proof (Z.mod_pos_bound (- n) k ltac:(lia)) as B.
  set (q := - n / k) in *. set (r := - n mod k) in *. assert (M0 : 0 <= - q) by nia.
  destruct (int_rank (- q)) as (rm & R1 & F). { split; [exact M0|]. nia. }
  assert (L : v <= - q * unit64).
  { rewrite <- F. apply fval_le; [lia|apply fround64_nonneg; nia|]. apply fround_le; [lia|nia|lia|lia|]. rewrite F. nia. }
  assert (H : (- q - 1) * unit64 < v).
  { destruct (Z.lt_ge_cases ((- q - 1) * unit64) v) as [|G]; [assumption|exfalso].
    assert (unit64 <= n * unit64 - v * k) by nia. nia. }
  f_equal. symmetry. apply Z.div_unique with (- v - q * unit64); lia.
Qed.
End Quotient.

Theorem floor_quotient n k : 0 <= n < 2 ^ 53 -> 0 < k <= 2 ^ 53 -> (do q <- true_div n k; floor_int q) = Ok (n / k).
Proof.
  intros N K. rewrite true_div_decode by lia. cbn [bind]. unfold floor_int. rewrite integer_decode by (apply floor_scaling || (apply quotient_range; lia)).
  cbn [cond_Zopp]. rewrite quotient_floor by assumption. reflexivity.
Qed.
Theorem trunc_quotient n k : 0 <= n < 2 ^ 53 -> 0 < k <= 2 ^ 53 -> (do q <- true_div n k; trunc_int q) = Ok (n / k).
Proof.
  intros N K. rewrite true_div_decode by lia. cbn [bind]. unfold trunc_int. rewrite integer_decode by (apply quot_scaling || (apply quotient_range; lia)).
  cbn [cond_Zopp]. rewrite Z.quot_div_nonneg by (apply unit_pos || (apply fval_nonneg; [lia|]; apply quotient_range; lia)). rewrite quotient_floor by assumption. reflexivity.
Qed.
Theorem ceil_quotient n k : 0 <= n < 2 ^ 53 -> 0 < k <= 2 ^ 53 -> (do q <- float_div n k; ceil_int q) = Ok (- ((- n) / k)).
Proof.
  intros N K. unfold float_div. destruct (Z.eqb_spec k 0); [lia|]. rewrite ratio_decode by lia. cbn [bind]. unfold ceil_int.
  rewrite integer_decode by (apply ceil_scaling || (apply quotient_range; lia)). cbn [cond_Zopp]. rewrite quotient_ceil by assumption. reflexivity.
Qed.
