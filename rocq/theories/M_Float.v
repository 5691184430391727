(** Binary floating point numbers, and the C library conversions between them and text.

    The finite non-negative values of a binary format with [p] explicit mantissa bits
    (23: float32, 52: float64) are listed in increasing order and named by their rank.
    Rank and bit pattern coincide: rank 0 is zero, rank 1 the smallest subnormal, and the
    exponent field of rank [k] is [k / 2^p].  [fval p k] is the value of rank [k] as a multiple
    of the smallest subnormal (2^-149, 2^-1074). *)
From Coq Require Import Ascii String List ZArith QArith Bool.
From Verif Require Import Base Num M_Text M_Svmlight.
Import ListNotations.
Local Open Scope Z_scope.

Definition fval (p k : Z) : Z :=
  if k <? 2 ^ (p + 1) then k else (2 ^ p + k mod 2 ^ p) * 2 ^ (k / 2 ^ p - 1).

(** The integer nearest to [a / b] (a >= 0, b > 0), ties to even. *)
Definition round_even (a b : Z) : Z :=
  let m := a / b in
  let r := a mod b in
  if 2 * r <? b then m else if b <? 2 * r then m + 1 else if Z.even m then m else m + 1.

(** Rank of the value nearest to [a / b], ties to even; the exponent is not bounded here. *)
Definition fround (p a b : Z) : Z :=
  let e := Z.max 0 (Z.log2 (a / b) - p) in
  e * 2 ^ p + round_even a (b * 2 ^ e).

(** ** float32 *)
Inductive f32 : Type := Fin (neg : bool) (k : Z) | FInf (neg : bool) | FNaN.
Definition f32_top : Z := 255 * 2 ^ 23.
Definition f64_top : Z := 2047 * 2 ^ 52.
Definition finite (v : f32) : Prop := match v with Fin _ k => 0 <= k < f32_top | _ => False end.
Definition f32_of_rank (neg : bool) (k : Z) : f32 := if k <? f32_top then Fin neg k else FInf neg.

(** m * 10^e as a fraction. *)
Definition dec_num (m e : Z) : Z := m * 10 ^ Z.max 0 e.
Definition dec_den (e : Z) : Z := 10 ^ Z.max 0 (- e).

(** [in >> y], y a float (strtof): overflow sets failbit; infinities are never passed. *)
Definition read_float (t : numtok) : option f32 :=
  match t with
  | Dec neg m e =>
      let k := fround 23 (dec_num m e * 2 ^ 149) (dec_den e) in
      if k <? f32_top then Some (Fin neg k) else None
  | _ => None
  end.
(** sscanf "%lf", then the conversion of the double to float. *)
Definition read_double_float (t : numtok) : f32 :=
  match t with
  | Dec neg m e =>
      let d := fround 52 (dec_num m e * 2 ^ 1074) (dec_den e) in
      if d <? f64_top then f32_of_rank neg (fround 23 (fval 52 d) (2 ^ 925)) else FInf neg
  | Inf neg => FInf neg
  | NaN => FNaN
  end.
(** svmlight_format.py 101: +inf becomes the largest float. *)
Definition clamp_inf (v : f32) : f32 := match v with FInf false => Fin false (f32_top - 1) | _ => v end.

(** ** [out << v] with precision 9: %.9g *)
Definition n_digits (n : Z) : Z := Z.of_nat (length (show_Z n)).
(** floor (log10 (a / b)) *)
Definition exponent10 (a b : Z) : Z :=
  let l := n_digits a - n_digits b in
  if b * 10 ^ Z.max 0 l <=? a * 10 ^ Z.max 0 (- l) then l else l - 1.
(** Nine significant digits and the decimal exponent. *)
Definition nine_digits (a b : Z) : Z * Z :=
  let x := exponent10 a b in
  let m := round_even (a * 10 ^ Z.max 0 (8 - x)) (b * 10 ^ Z.max 0 (x - 8)) in
  if m =? 10 ^ 9 then (10 ^ 8, x + 1) else (m, x).
Fixpoint drop_zeros (t : text) : text :=
  match t with
  | "0"%char :: r => drop_zeros r
  | _ => t
  end.
Definition strip_zeros (t : text) : text := rev (drop_zeros (rev t)).
Definition with_dot (f : text) : text := match f with [] => [] | _ => "."%char :: f end.
Definition show_exp (x : Z) : text :=
  let d := show_Z (Z.abs x) in
  "e"%char :: (if x <? 0 then "-"%char else "+"%char) :: (if n_digits (Z.abs x) <? 2 then "0"%char :: d else d).
Definition show_g (a b : Z) : text :=
  let '(m, x) := nine_digits a b in
  let ds := show_Z m in
  if (x <? -4) || (9 <=? x)
  then firstn 1 ds ++ with_dot (strip_zeros (skipn 1 ds)) ++ show_exp x
  else if 0 <=? x
  then firstn (Z.to_nat (x + 1)) ds ++ with_dot (strip_zeros (skipn (Z.to_nat (x + 1)) ds))
  else "0"%char :: with_dot (strip_zeros (repeat "0"%char (Z.to_nat (- x - 1)) ++ ds)).
Definition show_f32 (v : f32) : text :=
  match v with
  | Fin neg k => (if neg then lit "-" else []) ++ (if k =? 0 then lit "0" else show_g (fval 23 k) (2 ^ 149))
  | FInf neg => if neg then lit "-inf" else lit "inf"
  | FNaN => lit "nan"
  end.

Definition F32 : fmt f32 := mkFmt (Fin false 0) read_float read_double_float clamp_inf show_f32.

(** ** %f: six decimals of an exact value *)
Definition six_digits (k : Z) : text := repeat "0"%char (6 - length (show_Z k)) ++ show_Z k.
Definition show_fixed (q : Q) : text :=
  let m := round_even (Z.abs (Qnum q) * 10 ^ 6) (Zpos (Qden q)) in
  (if Qnum q <? 0 then lit "-" else []) ++ show_Z (m / 10 ^ 6) ++ lit "." ++ six_digits (m mod 10 ^ 6).
(** The exact value of a numeral. *)
Definition dec_value (t : numtok) : Q :=
  match t with
  | Dec neg m e => let v := (inject_Z (dec_num m e) / inject_Z (dec_den e))%Q in Qred (if neg then - v else v)
  | _ => 0%Q
  end.

(** ** Signed ranks: -k and k, both zeros being rank 0 *)
Definition sval (o : Z) : Z := if o <? 0 then - fval 23 (- o) else fval 23 o.
(** Rounding of [n * 2^-149] to float32. *)
Definition sround (n : Z) : Z := if n <? 0 then - fround 23 (- n) 1 else fround 23 n 1.
(** np.nextafter between float32 values. *)
Definition next_after (o target : Z) : Z := if target <? o then o - 1 else if o <? target then o + 1 else o.
(** proxy_XGBoost.py 95-97: np.nextafter(threshold, threshold - 1), all in float32. *)
Definition lower32 (o : Z) : Z := next_after o (sround (sval o - 2 ^ 149)).

(** float32 arithmetic on signed ranks (no infinities, NaN or negative zero): each operation
    is exact and then rounded.  Powers, logarithms and roots are not defined. *)
Definition srat (a b : Z) : Z :=
  let k := fround 23 (Z.abs a) (Z.abs b) in if (a <? 0) && (0 <? b) || (0 <? a) && (b <? 0) then - k else k.
Definition F32N : num :=
  mkNum Z 0 1065353216
        (fun a b => sround (sval a + sval b)) (fun a b => sround (sval a - sval b))
        (fun a b => srat (sval a * sval b) (2 ^ 149)) (fun a b => srat (sval a * 2 ^ 149) (sval b))
        (fun a b => sval a <=? sval b) (fun a b => sval a <? sval b) (fun a b => sval a =? sval b)
        (fun z => sround (z * 2 ^ 149))
        (fun x => x) (fun x => x) (fun x => x) (fun x _ => x) (fun _ => false) (fun x => x).
