(** Numbers, as a record of operations without laws, and its instance on the reals. *)
From Coq Require Import List ZArith QArith Qround Reals Lia Lra Bool.
From Verif Require Import Base.
Import ListNotations.

(** The operations the modelled code applies to floating point values.  [nf32] is
    the rounding done when a value is stored in a float32 array. *)
Record num : Type := mkNum {
  car :> Type;
  nzero : car;
  none : car;
  nadd : car -> car -> car;
  nsub : car -> car -> car;
  nmul : car -> car -> car;
  ndiv : car -> car -> car;
  nleb : car -> car -> bool;
  nltb : car -> car -> bool;
  neqb : car -> car -> bool;
  nofZ : Z -> car;
  nexp2 : car -> car;
  nlog2 : car -> car;
  nsqrt : car -> car;
  npow : car -> nat -> car;
  nisnan : car -> bool;
  nf32 : car -> car
}.
Arguments nzero {_}. Arguments none {_}. Arguments nadd {_}. Arguments nsub {_}.
Arguments nmul {_}. Arguments ndiv {_}. Arguments nleb {_}. Arguments nltb {_}.
Arguments neqb {_}. Arguments nofZ {_}. Arguments nexp2 {_}. Arguments nlog2 {_}.
Arguments nsqrt {_}. Arguments npow {_}. Arguments nisnan {_}. Arguments nf32 {_}.

Definition nofnat {N : num} (n : nat) : N := nofZ (Z.of_nat n).

(** Sum of an array.  (NumPy's pairwise order of additions is not modelled.) *)
Definition nsum {N : num} (l : list N) : N := fold_left nadd l nzero.

(** Maximum of a non-empty array, [a.max()]; ValueError on an empty one.  A NaN (the value
    that is not [nleb] itself) is kept, as NumPy does. *)
Definition nmax {N : num} (l : list N) : res N :=
  match l with
  | [] => Err ValueError
  | x :: xs => Ok (fold_left (fun m v => if nleb m v || negb (nleb v v) then v else m) xs x)
  end.

(** Reals.  [RN rnd] rounds with [rnd] when storing to float32; [RE] is exact. *)
Definition Rleb (a b : R) : bool := if Rle_dec a b then true else false.
Definition Rltb (a b : R) : bool := if Rlt_dec a b then true else false.
Definition Reqb (a b : R) : bool := if Req_EM_T a b then true else false.
Definition Rexp2 (x : R) : R := exp (x * ln 2).
Definition Rlog2 (x : R) : R := (ln x / ln 2)%R.

Definition RN (rnd : R -> R) : num :=
  mkNum R 0%R 1%R Rplus Rminus Rmult Rdiv Rleb Rltb Reqb IZR Rexp2 Rlog2 sqrt pow
        (fun _ => false) rnd.
Definition RE : num := RN (fun x => x).

(** Rationals: executable instance used in examples (2^x is only meaningful for
    integers, log2 for powers of 2, sqrt for squares). *)
Definition QN : num :=
  mkNum Q 0%Q 1%Q (fun a b => Qred (a + b)) (fun a b => Qred (a - b))
        (fun a b => Qred (a * b)) (fun a b => Qred (a / b))
        Qle_bool (fun a b => negb (Qle_bool b a)) Qeq_bool inject_Z
        (fun x => Qred (Qpower 2 (Qfloor x))) (fun x => inject_Z (Z.log2 (Qfloor x)))
        (fun x => inject_Z (Z.sqrt (Qfloor x)))
        (fun x n => Qred (Qpower x (Z.of_nat n))) (fun _ => false) (fun x => x).

(** Laws used when only the order matters. *)
Record total_order (N : num) : Prop := {
  to_refl : forall a : N, nleb a a = true;
  to_total : forall a b : N, nleb a b = true \/ nleb b a = true;
  to_trans : forall a b c : N, nleb a b = true -> nleb b c = true -> nleb a c = true;
  to_antisym : forall a b : N, nleb a b = true -> nleb b a = true -> a = b
}.

Lemma Rleb_true a b : Rleb a b = true <-> (a <= b)%R.
Proof. unfold Rleb. destruct (Rle_dec a b); split; intros; auto; discriminate. Qed.
Lemma Rleb_false a b : Rleb a b = false <-> (b < a)%R.
Proof. unfold Rleb. destruct (Rle_dec a b); split; intros; auto; try discriminate; lra. Qed.
Lemma Rltb_true a b : Rltb a b = true <-> (a < b)%R.
Proof. unfold Rltb. destruct (Rlt_dec a b); split; intros; auto; discriminate. Qed.
Lemma Rltb_false a b : Rltb a b = false <-> (b <= a)%R.
Proof. unfold Rltb. destruct (Rlt_dec a b); split; intros; auto; try discriminate; lra. Qed.
Lemma Reqb_true a b : Reqb a b = true <-> a = b.
Proof. unfold Reqb. destruct (Req_EM_T a b); split; intros; auto; discriminate. Qed.
Lemma Reqb_false a b : Reqb a b = false <-> a <> b.
Proof. unfold Reqb. destruct (Req_EM_T a b); split; intros; auto; try discriminate; contradiction. Qed.

Lemma RN_total_order rnd : total_order (RN rnd).
Proof.
  split; cbn; intros; rewrite ?Rleb_true in *; try lra.
Qed.
