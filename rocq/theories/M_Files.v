(** Data sets by path or by open stream: svmlight_format.py 16-36 (_open), 76-80, 146-152 and
    199-203, dataset.py 86-113 and 136-165.

    Simplifications: file descriptors are not modelled; a path names a file directly (no
    links, directories or permissions); a compressed file is decoded as a whole before its
    first line is read; a write that fails leaves an empty file. *)
From Coq Require Import Ascii String List ZArith Bool.
From Verif Require Import Base M_Text M_Dataset M_Svmlight.
Import ListNotations.
Local Open Scope Z_scope.

(** str.rfind of one character: the last index, or -1. *)
Fixpoint rfind_from (i : Z) (c : ascii) (p : text) (last : Z) : Z :=
  match p with [] => last | x :: r => rfind_from (i + 1) c r (if Ascii.eqb x c then i else last) end.
Definition rfind (c : ascii) (p : text) : Z := rfind_from 0 c p (-1).
(** os.path.splitext on POSIX (genericpath.py _splitext): the extension.  The loop looks for
    a character other than a dot between the last slash and the last dot. *)
Definition splitext (p : text) : text :=
  let sep := rfind "/" p in
  let dot := rfind "." p in
  if sep <? dot
  then if existsb (fun c => negb (Ascii.eqb c ".")) (firstn (Z.to_nat (dot - (sep + 1))) (skipn (Z.to_nat (sep + 1)) p))
       then skipn (Z.to_nat dot) p else []
  else [].

(** gzip.open and bz2.open: what is written for a text, what is read back (None: not an
    archive). *)
Record codec : Type := mkCodec { encode : text -> text; decode : text -> option text }.
(** An archive gives back what was written. *)
Definition faithful (c : codec) : Prop := forall t, decode c (encode c t) = Some t.
Definition plain : codec := mkCodec (fun t => t) Some.

(** The files; what is still to be read from each open stream; what has been written to it. *)
Record world : Type := mkWorld { files : text -> option text; unread : nat -> text; written : nat -> text }.
Definition upd {A B} (eqb : A -> A -> bool) (f : A -> B) (a : A) (b : B) : A -> B := fun x => if eqb x a then b else f x.
Definition text_eqb (a b : text) : bool := if list_eq_dec ascii_dec a b then true else false.

(** A data set given by the caller: a path, a stream, or something else. *)
Inductive source : Type := Path (p : text) | Stream (h : nat) | Strange.

Section Files.
Context (gz bz : codec).
(** 28-36: the choice by the extension. *)
Definition codec_of (p : text) : codec :=
  if text_eqb (splitext p) (lit ".gz") then gz
  else if text_eqb (splitext p) (lit ".bz2") then bz else plain.
Definition read_path (w : world) (p : text) : res text :=
  match files w p with
  | None => Err IOError
  | Some b => match decode (codec_of p) b with Some t => Ok t | None => Err IOError end
  end.
Definition write_path (w : world) (p : text) (t : text) : world :=
  mkWorld (upd text_eqb (files w) p (Some (encode (codec_of p) t))) (unread w) (written w).

Context {V : Type} (F : fmt V).
(** _svmlight_format.cpp 318-335 on a stream: the lines that remain when the loop ends. *)
Fixpoint read_lines (ls : list text) (st : lstate (V:=V)) : list text :=
  match ls with
  | [] => []
  | l :: r => let line := c_string l in
              if is_nil line then r
              else match parse_line F line st with Ok st' => read_lines r st' | Err _ => r end
  end.
(** 76-101: load_svmlight_file. *)
Definition load_source (w : world) (a : source) : world * res (nat * list (list V) * list V * list Z) :=
  match a with
  | Path p => (w, do t <- read_path w p; load_svmlight_file F t)
  | Stream h =>
      let t := unread w h in
      (mkWorld (files w) (upd Nat.eqb (unread w) h (concat (read_lines (file_lines t) l_init))) (written w), load_svmlight_file F t)
  | Strange => (w, Err TypeError)
  end.
(** 146-152: load_svmlight_files: one source after the other, up to the first error. *)
Fixpoint load_rest (w : world) (l : list source) : world * res (list (nat * list (list V) * list V * list Z)) :=
  match l with
  | [] => (w, Ok [])
  | a :: r => let '(w1, x) := load_source w a in
              match x with
              | Err e => (w1, Err e)
              | Ok v => let '(w2, y) := load_rest w1 r in (w2, do vs <- y; Ok (v :: vs))
              end
  end.
Definition load_sources (w : world) (l : list source) :=
  match l with [] => (w, Err PlainException) | _ => load_rest w l end.
(** 192-203: dump_svmlight_file. *)
Definition dump_source (w : world) (a : source) (zb : bool) (X : list (list V)) (y : list V) (qids : list Z) : world * res unit :=
  let t := dump_svmlight_file F zb X y qids in
  match a with
  | Path p => match t with Ok t => (write_path w p t, Ok tt) | Err e => (write_path w p [], Err e) end
  | Stream h => match t with
                | Ok t => (mkWorld (files w) (unread w) (upd Nat.eqb (written w) h (written w h ++ t)), Ok tt)
                | Err e => (w, Err e)
                end
  | Strange => (w, Err TypeError)
  end.
(** dataset.py 86-113 and 136-165: Dataset.load and Dataset.dump; [svm] tells whether format
    is "svmlight" (the unrolling of the ids comes first). *)
Definition dataset_load (w : world) (svm : bool) (a : source) : world * res (dataset V) :=
  if svm then let '(w1, x) := load_source w a in (w1, do p <- x; let '(nf, X, y, ids) := p in ds_init nf X y ids)
  else (w, Err TypeError).
Definition dataset_dump (w : world) (svm : bool) (a : source) (junk : list Z) (d : dataset V) : world * res unit :=
  if svm then dump_source w a false (ds_X d) (ds_y d) (unroll i32 junk d) else (w, Err TypeError).
End Files.
