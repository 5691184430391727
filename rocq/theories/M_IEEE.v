(** float32 and float64 as the hardware computes them: IEEE 754 binary arithmetic.

    [F32N] (M_Float.v) has neither infinities, NaN nor negative zero, and its exponents are
    unbounded.  Here the numbers are those of Coq's [SpecFloat]: what the C code compiled from
    _efficient_scoring.pyx 37-118 and NumPy's elementwise operations (rt_ensemble.py 250-307)
    compute on float32, and NumPy's float64 operations in the metrics.  Powers and logarithms
    of the C library are not defined by IEEE 754: they answer NaN here.  [nf32] is the
    conversion done when a float64 is stored in a float32 array.

    [SpecFloat] is the standard library's executable definition of IEEE 754 binary arithmetic
    (signed zeros, subnormals, infinities, NaN, rounding to nearest, ties to even), the one
    the kernel's floating point primitives are specified by. *)
From Coq Require Import List ZArith Bool SpecFloat.
From Verif Require Import Base Num.
Import ListNotations.
Local Open Scope Z_scope.

(** ** Bit patterns *)
(** The value of the bit pattern [k] (without its sign bit) of the format with [p] fraction
    bits whose finite values are below 2^emax: the exponent field is [k / 2^p], the fraction
    field [k mod 2^p].  Patterns from the all-ones exponent on stand for infinity. *)
Definition decode (p emax : Z) (neg : bool) (k : Z) : spec_float :=
  let e := k / 2 ^ p in
  let m := k mod 2 ^ p in
  if e =? 0 then if m =? 0 then S754_zero neg else S754_finite neg (Z.to_pos m) (emin (p + 1) emax)
  else if e <? 2 * emax - 1 then S754_finite neg (Z.to_pos (2 ^ p + m)) (e - 1 + emin (p + 1) emax)
  else S754_infinity neg.

(** float32 and float64. *)
Definition bits32 : bool -> Z -> spec_float := decode 23 128.
Definition bits64 : bool -> Z -> spec_float := decode 52 1024.
(** A signed rank of [M_Float] as a float32. *)
Definition ieee (o : Z) : spec_float := bits32 (o <? 0) (Z.abs o).
(** Its inverse: the signed bit pattern of a finite value. *)
Definition bits_of (x : spec_float) : Z :=
  match x with S754_finite s m e => cond_Zopp s ((e + 149) * 2 ^ 23 + Zpos m) | _ => 0 end.

(** ** Arithmetic *)
Definition is_nan (x : spec_float) : bool := match x with S754_nan => true | _ => false end.
Definition to_float32 (x : spec_float) : spec_float :=
  match x with S754_finite s m e => binary_round 24 128 s m e | _ => x end.
Fixpoint sf_pow (prec emax : Z) (x : spec_float) (n : nat) : spec_float :=
  match n with O => binary_normalize prec emax 1 0 false | S n => SFmul prec emax x (sf_pow prec emax x n) end.

Definition IEEE (prec emax : Z) : num :=
  mkNum spec_float (S754_zero false) (binary_normalize prec emax 1 0 false)
        (SFadd prec emax) (SFsub prec emax) (SFmul prec emax) (SFdiv prec emax)
        SFleb SFltb SFeqb (fun z => binary_normalize prec emax z 0 false)
        (fun _ => S754_nan) (fun _ => S754_nan) (SFsqrt prec emax) (sf_pow prec emax) is_nan to_float32.
Definition IEEE32 : num := IEEE 24 128.
Definition IEEE64 : num := IEEE 53 1024.

(** proxy_XGBoost.py 91-97: np.nextafter(threshold, threshold - 1) on float32.  nextafter moves to
    the neighbouring bit pattern, or answers its second argument if both are equal. *)
Definition lower_ieee (x : IEEE32) : IEEE32 :=
  match x with
  | S754_nan | S754_infinity _ => x
  | _ => if nltb (nsub x none) x then ieee (bits_of x - 1) else x
  end.
