(** What svmlight text means, independently of the parser of M_Svmlight.v. *)
From Coq Require Import Ascii String List ZArith Bool Sorted.
From Verif Require Import Base M_Text M_Svmlight.
Import ListNotations.
Local Open Scope Z_scope.

(** ** Characters and numerals *)
Definition blank_char (c : ascii) : Prop := In c (map ascii_of_nat [32; 9; 10; 11; 12; 13]%nat).
Definition blanks (w : text) : Prop := Forall blank_char w.

Definition digit_char (c : ascii) : Prop := In c (lit "0123456789").
Definition digits (t : text) : Prop := Forall digit_char t.

(** Positional value of a string of digits. *)
Fixpoint dvalue (t : text) : Z :=
  match t with
  | [] => 0
  | c :: r => (Z.of_nat (nat_of_ascii c) - 48) * 10 ^ Z.of_nat (length r) + dvalue r
  end.

Inductive sign_text : text -> bool -> Prop :=
| sign_none : sign_text [] false
| sign_plus : sign_text (lit "+") false
| sign_minus : sign_text (lit "-") true.

(** [e|E] [sign] digits, or nothing. *)
Inductive exponent_text : text -> Z -> Prop :=
| exp_none : exponent_text [] 0
| exp_some c sg neg ds : In c (lit "eE") -> sign_text sg neg -> digits ds -> ds <> [] ->
    exponent_text (c :: sg ++ ds) (if neg then - dvalue ds else dvalue ds).

(** [sign] digits [. digits] [exponent], with at least one digit in the mantissa. *)
Inductive numeral : text -> numtok -> Prop :=
| numeral_intro sg neg ip dot fp ex e :
    sign_text sg neg -> digits ip -> digits fp -> ip ++ fp <> [] ->
    (dot = lit "." \/ dot = [] /\ fp = []) -> exponent_text ex e ->
    numeral (sg ++ ip ++ dot ++ fp ++ ex)
            (Dec neg (dvalue (ip ++ fp)) (e - Z.of_nat (length fp))).

(** A natural number that fits an int. *)
Definition natural (t : text) (n : Z) : Prop :=
  digits t /\ t <> [] /\ dvalue t = n /\ n < 2 ^ 31.

(** An optionally signed integer that fits an int. *)
Definition int_text (t : text) (q : Z) : Prop :=
  exists sg neg ds, t = sg ++ ds /\ sign_text sg neg /\ digits ds /\ ds <> [] /\
    q = (if neg then - dvalue ds else dvalue ds) /\ - 2 ^ 31 <= q < 2 ^ 31.

(** ** Lines *)

(** " f1:v1 f2:v2 ...": each pair preceded by at least one blank. *)
Inductive pairs_text : text -> list (Z * numtok) -> Prop :=
| pairs_nil : pairs_text [] []
| pairs_cons w tf f tv v rest ps :
    blanks w -> w <> [] -> natural tf f -> numeral tv v -> pairs_text rest ps ->
    pairs_text (w ++ tf ++ lit ":" ++ tv ++ rest) ((f, v) :: ps).

(** Optional " qid:q". *)
Inductive qid_text : text -> option Z -> Prop :=
| qid_none : qid_text [] None
| qid_some w tq q : blanks w -> w <> [] -> int_text tq q ->
    qid_text (w ++ lit "qid:" ++ tq) (Some q).

(** A data line: label, optional query id, pairs (one of the two must be there),
    blanks, optional comment. *)
Record entry : Type := mkEntry { en_label : numtok; en_qid : option Z; en_pairs : list (Z * numtok) }.

Inductive data_line : text -> entry -> Prop :=
| data_line_intro w0 ty y tq q tp ps w1 cmt :
    blanks w0 -> numeral ty y -> qid_text tq q -> pairs_text tp ps -> blanks w1 ->
    (q <> None \/ ps <> []) ->
    (cmt = [] \/ exists c, cmt = "#"%char :: c) ->
    data_line (w0 ++ ty ++ tq ++ tp ++ w1 ++ cmt) (mkEntry y q ps).

Definition comment_line (l : text) : Prop := exists c, l = "#"%char :: c.

(** Feature ids are at least 1 and strictly increasing. *)
Definition increasing (ps : list (Z * numtok)) : Prop :=
  StronglySorted Z.lt (map fst ps) /\ Forall (fun p => 1 <= fst p) ps.

(** The columns in which the loader stores the values of a line, for ids in any order: the
    column of a value is its id, or the next free column when that is larger. *)
Fixpoint placed (next : Z) (ps : list (Z * numtok)) : list (Z * numtok) :=
  match ps with
  | [] => []
  | (f, v) :: r => let c := Z.max next f in (c, v) :: placed (c + 1) r
  end.
Definition en_cols (e : entry) : list (Z * numtok) := placed 1 (en_pairs e).

(** A file as its lines: each ends with its only newline, which the last may lack;
    no NUL byte. *)
Definition line_body (b : text) : Prop := ~ In newline b /\ ~ In nul b.
Inductive file_text : text -> list text -> Prop :=
| file_empty : file_text [] []
| file_last b : line_body b -> b <> [] -> file_text b [b]
| file_cons b f ls : line_body b -> file_text f ls ->
    file_text (b ++ [newline] ++ f) ((b ++ [newline]) :: ls).

(** The entries of the data lines, in order; comment lines are skipped. *)
Inductive entries : list text -> list entry -> Prop :=
| entries_nil : entries [] []
| entries_comment l ls es : comment_line l -> entries ls es -> entries (l :: ls) es
| entries_data l e ls es : data_line l e -> entries ls es -> entries (l :: ls) (e :: es).

(** ** Dense rows *)
Section Dense.
Context {V : Type} (F : fmt V).

(** The value of feature [f], zero when the line does not mention it. *)
Definition cell (ps : list (Z * numtok)) (f : Z) : V :=
  match find (fun p => fst p =? f) ps with
  | Some p => rd_value F (snd p)
  | None => vzero F
  end.
Definition dense (w : nat) (ps : list (Z * numtok)) : list V :=
  map (fun j => cell ps (Z.of_nat j)) (seq 1 w).
(** The loader state holds the rows [M], all of width [w]. *)
Definition holds (M : list (list V)) (w : nat) (st : lstate) : Prop :=
  l_data st = concat M /\ Forall (fun r => length r = w) M /\ l_max st = Z.of_nat w.

(** [num v] is the numeral that is printed for [v], and reading it gives [v] back. *)
Definition cell_prints (num : V -> numtok) (v : V) : Prop :=
  numeral (show F v) (num v) /\ rd_value F (num v) = v /\ clamp F v = v.
Definition label_prints (num : V -> numtok) (v : V) : Prop :=
  numeral (show F v) (num v) /\ rd_label F (num v) = Some v.
End Dense.

(** Largest feature id (0 if none). *)
Definition widest (ps : list (Z * numtok)) : nat :=
  fold_right Nat.max 0%nat (map (fun p => Z.to_nat (fst p)) ps).
Definition width (es : list entry) : nat :=
  fold_right Nat.max 0%nat (map (fun e => widest (en_pairs e)) es).
(** Largest column actually used. *)
Definition cols_width (es : list entry) : nat :=
  fold_right Nat.max 0%nat (map (fun e => widest (en_cols e)) es).

(** Query ids that are present. *)
Fixpoint somes {A} (l : list (option A)) : list A :=
  match l with [] => [] | Some a :: r => a :: somes r | None :: r => somes r end.

(** ** Malformed lines *)

(** The text does not start with a decimal numeral. *)
Definition no_number (t : text) : Prop :=
  forall sg neg r, sign_text sg neg -> t = sg ++ r ->
    ~ (exists c r', r = c :: r' /\ digit_char c) /\
    ~ (exists c r', r = "."%char :: c :: r' /\ digit_char c).
(** ... nor with inf or nan in any case. *)
Definition no_inf_nan (t : text) : Prop :=
  forall sg neg a b c r, sign_text sg neg -> t = sg ++ a :: b :: c :: r ->
    ~ (In a (lit "iI") /\ In b (lit "nN") /\ In c (lit "fF")) /\
    ~ (In a (lit "nN") /\ In b (lit "aA") /\ In c (lit "nN")).
(** The text does not start with a signed integer followed by a colon. *)
Definition no_id (t : text) : Prop :=
  forall sg neg ds r, sign_text sg neg -> digits ds -> ds <> [] -> t <> sg ++ ds ++ lit ":" ++ r.

(** The text does not start with a signed integer. *)
Definition no_int (t : text) : Prop :=
  forall sg neg c r, sign_text sg neg -> t = sg ++ c :: r -> ~ digit_char c.

(** A word that is not "id:value...": no id, or no number after the colon. *)
Definition bad_pair (t : text) : Prop :=
  no_id t \/
  exists i v, t = i ++ lit ":" ++ v /\ ~ In ":"%char i /\ no_number v /\ no_inf_nan v.

Definition word (t : text) : Prop := t <> [] /\ Forall (fun c => ~ blank_char c) t.
(** No "#" outside the comment. *)
Definition no_hash (t : text) : Prop := ~ In "#"%char t.

Inductive bad_line : text -> Prop :=
| bad_label w t cmt :                  (* no numeric label (also blank lines) *)
    blanks w -> no_hash t -> no_number t ->
    (forall c r, t = c :: r -> ~ blank_char c) ->
    (cmt = [] \/ exists c, cmt = "#"%char :: c) ->
    ~ comment_line (w ++ t ++ cmt) ->
    bad_line (w ++ t ++ cmt)
| bad_exponent w sg neg ip dot fp c sg' neg' t cmt :   (* a label that stops after the e *)
    blanks w -> sign_text sg neg -> digits ip -> digits fp -> ip ++ fp <> [] ->
    (dot = lit "." \/ dot = [] /\ fp = []) -> In c (lit "eE") -> sign_text sg' neg' -> no_hash t ->
    (forall a r, t = a :: r -> ~ digit_char a /\ (sg' = [] -> ~ In a (lit "+-"))) ->
    (cmt = [] \/ exists c, cmt = "#"%char :: c) ->
    bad_line (w ++ sg ++ ip ++ dot ++ fp ++ c :: sg' ++ t ++ cmt)
| bad_second w ty y w' cmt :           (* nothing after the label *)
    blanks w -> numeral ty y -> blanks w' ->
    (cmt = [] \/ exists c, cmt = "#"%char :: c) ->
    bad_line (w ++ ty ++ w' ++ cmt)
| bad_token w ty y w1 pre t post cmt :   (* a word after the label; the first one
                                            may also be qid:integer *)
    blanks w -> numeral ty y -> blanks w1 -> w1 <> [] ->
    no_hash pre -> no_hash post -> word t -> no_hash t ->
    (pre = [] \/ exists p c, pre = p ++ [c] /\ blank_char c) ->
    (post = [] \/ exists c p, post = c :: p /\ blank_char c) ->
    bad_pair t ->
    (blanks pre -> forall r, t = lit "qid:" ++ r -> no_int r) ->
    (cmt = [] \/ exists c, cmt = "#"%char :: c) ->
    bad_line (w ++ ty ++ w1 ++ pre ++ t ++ post ++ cmt).
