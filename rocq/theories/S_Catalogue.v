(** Dictionaries of strings and dictionaries. *)
From Coq Require Import Ascii String List Bool.
From Verif Require Import Base M_Text M_Catalogue.
Import ListNotations.

(** What is found by following keys: a string, an object, or nothing. *)
Inductive found := AString (t : text) | AnObject | Nothing.
Fixpoint follow (p : list text) (j : json) : found :=
  match p, j with
  | [], JStr t => AString t
  | [], JObj _ => AnObject
  | _ :: _, JStr _ => Nothing
  | k :: p', JObj items =>
      (fix look_up l := match l with
                        | [] => Nothing
                        | (k', v) :: r => if list_eq_dec ascii_dec k' k then follow p' v else look_up r
                        end) items
  end.
(** A Python dictionary: keys are distinct, at every level. *)
Fixpoint dictionary (j : json) : Prop :=
  match j with
  | JStr _ => True
  | JObj items => NoDup (map fst items) /\ (fix all l := match l with [] => True | (_, v) :: r => dictionary v /\ all r end) items
  end.

(** ** The grammar of JSON texts made of strings and objects (code points below 256) *)
Definition blank (c : ascii) : Prop := In (nat_of_ascii c) [32; 9; 10; 13].
Definition blanks (w : text) : Prop := Forall blank w.
(** The character after the backslash, and what the pair stands for. *)
Definition short_escapes : list (ascii * nat) :=
  [("""", 34); ("\", 92); ("/", 47); ("b", 8); ("f", 12); ("n", 10); ("r", 13); ("t", 9)]%char.
Definition hex_chars : list (ascii * nat) :=
  [("0", 0); ("1", 1); ("2", 2); ("3", 3); ("4", 4); ("5", 5); ("6", 6); ("7", 7); ("8", 8); ("9", 9);
   ("a", 10); ("b", 11); ("c", 12); ("d", 13); ("e", 14); ("f", 15);
   ("A", 10); ("B", 11); ("C", 12); ("D", 13); ("E", 14); ("F", 15)]%char.
(** [body b t]: between its quotes the string [t] can be written [b]. *)
Inductive body : text -> text -> Prop :=
| body_end : body [] []
| body_char c b t : 32 <= nat_of_ascii c -> c <> """"%char -> c <> "\"%char -> body b t -> body (c :: b) (c :: t)
| body_short e n b t : In (e, n) short_escapes -> body b t -> body ("\"%char :: e :: b) (ascii_of_nat n :: t)
| body_hex h l x y b t : In (h, x) hex_chars -> In (l, y) hex_chars -> body b t ->
    body (lit "\u00" ++ h :: l :: b) (ascii_of_nat (16 * x + y) :: t).
Definition quoted (b : text) : text := lit """" ++ b ++ lit """".

(** Items written one after the other: every key once, where it came first, with the value that
    came last. *)
Definition binding (k : text) (l : list (text * json)) : option json :=
  option_map snd (find (fun p => if list_eq_dec ascii_dec (fst p) k then true else false) l).
Definition collects (l d : list (text * json)) : Prop :=
  map fst d = rev (nodup (list_eq_dec ascii_dec) (rev (map fst l))) /\ forall k, binding k d = binding k (rev l).

Inductive value_text : text -> json -> Prop :=
| text_string b t : body b t -> value_text (quoted b) (JStr t)
| text_empty w : blanks w -> value_text (lit "{" ++ w ++ lit "}") (JObj [])
| text_object w x l d : blanks w -> items_text x l -> collects l d -> value_text (lit "{" ++ w ++ x ++ lit "}") (JObj d)
with items_text : text -> list (text * json) -> Prop :=
| text_last kb k w1 w2 x v w3 : body kb k -> blanks w1 -> blanks w2 -> value_text x v -> blanks w3 ->
    items_text (quoted kb ++ w1 ++ lit ":" ++ w2 ++ x ++ w3) [(k, v)]
| text_item kb k w1 w2 x v w3 w4 y l : body kb k -> blanks w1 -> blanks w2 -> value_text x v -> blanks w3 -> blanks w4 -> items_text y l ->
    items_text (quoted kb ++ w1 ++ lit ":" ++ w2 ++ x ++ w3 ++ lit "," ++ w4 ++ y) ((k, v) :: l).
Definition document (t : text) (j : json) : Prop := exists w x w', blanks w /\ value_text x j /\ blanks w' /\ t = w ++ x ++ w'.

(** ** Entries: which key names what *)
From Verif Require Import M_Fetcher.
(** A file name cut at its slashes. *)
Definition cut (p : path) (t : text) : Prop := p <> [] /\ (forall x, In x p -> ~ In "/"%char x) /\ t = hd [] p ++ concat (map (fun x => "/"%char :: x) (tl p)).
Definition says (item : list (text * json)) (k : string) (t : text) : Prop := follow [lit k] (JObj item) = AString t.
Definition says_nothing (item : list (text * json)) (k : string) : Prop := forall t, ~ says item k t.
Definition optional {A} (item : list (text * json)) (k : string) (v : option A) (ok : A -> text -> Prop) : Prop :=
  match v with Some a => exists t, says item k t /\ ok a t | None => says_nothing item k end.
Definition entry_of (item : list (text * json)) (e : entry) : Prop :=
  says item "DATASET_NAME" (d_name e) /\ says item "DATASET_ARCHIVE_NAME" (d_archive e) /\ says item "DATASET_URL" (d_url e) /\
  (exists t, says item "TRAIN_FILE" t /\ cut (d_train e) t) /\ (exists t, says item "TEST_FILE" t /\ cut (d_test e) t) /\
  optional item "VALIDATION_FILE" (d_validation e) cut /\ optional item "COMMON_SUBFOLDER_NAME" (d_subfolder e) eq /\
  optional item "LICENSE_FILE" (d_license e) cut /\ says item "BLOG_POST_URL" (d_blog e) /\
  says item "MODELS_ARCHIVE_NAME" (d_models_archive e) /\ says item "MODELS_URL" (d_models_url e).
