(** Text as lists of characters, and the C / C++ routines that read numbers from it.

    These are the library functions used by _svmlight_format.cpp (istream extraction
    of libstdc++, sscanf of glibc).  Conversion of a decimal numeral to a floating
    point value is not done here: a numeral is kept as [sign, m, e] for m * 10^e.

    Simplifications: hexadecimal floats are not recognised, the locale is "C". *)
From Coq Require Import Ascii String List ZArith Bool.
From Verif Require Import Base.
Import ListNotations.
Set Implicit Arguments.
Local Open Scope Z_scope.

Definition text := list ascii.
Definition lit (s : string) : text := list_ascii_of_string s.

Definition code (c : ascii) : Z := Z.of_nat (nat_of_ascii c).
Definition newline : ascii := ascii_of_nat 10.
Definition nul : ascii := ascii_of_nat 0.

(** isspace() in the C locale: space, \t \n \v \f \r. *)
Definition is_space (c : ascii) : bool :=
  (code c =? 32) || ((9 <=? code c) && (code c <=? 13)).
Definition is_digit (c : ascii) : bool := (48 <=? code c) && (code c <=? 57).

(** Longest prefix satisfying [p], and the rest. *)
Fixpoint span (p : ascii -> bool) (l : text) : text * text :=
  match l with
  | [] => ([], [])
  | c :: r => if p c then let '(a, b) := span p r in (c :: a, b) else ([], l)
  end.

Definition skip_space (l : text) : text := snd (span is_space l).

(** Value of a string of decimal digits. *)
Definition digits_val (l : text) : Z := fold_left (fun a c => 10 * a + (code c - 48)) l 0.

Definition take_sign (l : text) : bool * text :=
  match l with
  | "-"%char :: r => (true, r)
  | "+"%char :: r => (false, r)
  | _ => (false, l)
  end.

(** A numeral: (+/-) m * 10^e, an infinity, or not-a-number. *)
Inductive numtok : Type :=
| Dec (neg : bool) (m e : Z)
| Inf (neg : bool)
| NaN.

Definition mk_dec (neg : bool) (ip fp : text) (e : Z) : numtok :=
  Dec neg (digits_val (ip ++ fp)) (e - Z.of_nat (length fp)).

(** digits [. digits]: integer part, fractional part, rest. *)
Definition take_mantissa (l : text) : text * text * text :=
  let '(ip, r1) := span is_digit l in
  match r1 with
  | "."%char :: r => let '(fp, r2) := span is_digit r in (ip, fp, r2)
  | _ => (ip, [], r1)
  end.

(** (e|E) [sign] digits: [Some] when there is an e; the digits may be missing. *)
Definition take_exponent (l : text) : option (bool * text * text) :=
  match l with
  | c :: r => if (code c =? 101) || (code c =? 69)
              then let '(s, r1) := take_sign r in
                   let '(ed, r2) := span is_digit r1 in Some (s, ed, r2)
              else None
  | [] => None
  end.

Definition exp_val (s : bool) (ed : text) : Z := if s then - digits_val ed else digits_val ed.

Definition is_nil (l : text) : bool := match l with [] => true | _ => false end.

(** [in >> y] for a float y (libstdc++): white space, then the longest run of
    characters that looks like a decimal numeral; the run must then be a complete
    numeral ("1e" fails).  Infinities and NaN are not recognised. *)
Definition istream_float (l : text) : option (numtok * text) :=
  let '(neg, r0) := take_sign (skip_space l) in
  let '(ip, fp, r1) := take_mantissa r0 in
  if is_nil (ip ++ fp) then None
  else match take_exponent r1 with
       | None => Some (mk_dec neg ip fp 0, r1)
       | Some (s, ed, r2) =>
           if is_nil ed then None else Some (mk_dec neg ip fp (exp_val s ed), r2)
       end.

Definition lower (c : ascii) : ascii :=
  if (65 <=? code c) && (code c <=? 90) then ascii_of_nat (nat_of_ascii c + 32) else c.

(** Strip the prefix [p], ignoring case ([p] is in lower case). *)
Fixpoint strip_ci (p l : text) : option text :=
  match p, l with
  | [], _ => Some l
  | a :: p', c :: l' => if Ascii.eqb a (lower c) then strip_ci p' l' else None
  | _, [] => None
  end.
Fixpoint strip (p l : text) : option text :=
  match p, l with
  | [], _ => Some l
  | a :: p', c :: l' => if Ascii.eqb a c then strip p' l' else None
  | _, [] => None
  end.

(** sscanf "%lf" as last directive (glibc): what follows the longest numeral is
    ignored; an exponent mark without digits is ignored too. *)
Definition scan_double (l : text) : option numtok :=
  let '(neg, r0) := take_sign (skip_space l) in
  match strip_ci (lit "nan") r0 with
  | Some _ => Some NaN
  | None =>
    match strip_ci (lit "inf") r0 with
    | Some r => match strip_ci (lit "i") r with
                | None => Some (Inf neg)
                | Some r' => match strip_ci (lit "nity") r' with
                             | Some _ => Some (Inf neg) | None => None end
                end
    | None =>
      let '(ip, fp, r1) := take_mantissa r0 in
      if is_nil (ip ++ fp) then None
      else match take_exponent r1 with
           | Some (s, ed, _) =>
               if is_nil ed then Some (mk_dec neg ip fp 0)
               else Some (mk_dec neg ip fp (exp_val s ed))
           | None => Some (mk_dec neg ip fp 0)
           end
    end
  end.

(** sscanf "%u" into an int variable (glibc: strtoul on 64 bits, saturating, then
    truncation to 32 bits; a sign is accepted). *)
Definition scan_uint (l : text) : option (Z * text) :=
  let '(neg, r0) := take_sign (skip_space l) in
  let '(ds, r1) := span is_digit r0 in
  if is_nil ds then None
  else let v := digits_val ds in
       let ul := if 2 ^ 64 - 1 <? v then 2 ^ 64 - 1 else if neg then u64 (- v) else v in
       Some (i32 ul, r1).

(** Successive [in >> token]: the words separated by white space. *)
Fixpoint words_from (cur : text) (l : text) : list text :=
  match l with
  | [] => if is_nil cur then [] else [rev cur]
  | c :: r => if is_space c
              then (if is_nil cur then words_from [] r else rev cur :: words_from [] r)
              else words_from (c :: cur) r
  end.
Definition words (l : text) : list text := words_from [] l.

(** [line.substr(0, line.find('#'))]. *)
Definition before (c : ascii) (l : text) : text :=
  fst (span (fun x => negb (Ascii.eqb x c)) l).

(** Lines of a binary file, each with its newline (the last one may lack it). *)
Fixpoint lines_from (cur : text) (l : text) : list text :=
  match l with
  | [] => if is_nil cur then [] else [rev cur]
  | c :: r => if Ascii.eqb c newline then rev (c :: cur) :: lines_from [] r
              else lines_from (c :: cur) r
  end.
Definition file_lines (l : text) : list text := lines_from [] l.

(** [out << n] for an int. *)
Fixpoint nat_digits (fuel : nat) (n : Z) : text :=
  match fuel with
  | O => []
  | S f => if n <? 10 then [ascii_of_nat (Z.to_nat (n + 48))]
           else nat_digits f (n / 10) ++ [ascii_of_nat (Z.to_nat (n mod 10 + 48))]
  end.
Definition show_Z (n : Z) : text :=
  if n <? 0 then "-"%char :: nat_digits (S (Z.to_nat (Z.log2 (- n)))) (- n)
  else nat_digits (S (Z.to_nat (Z.log2 n))) n.
