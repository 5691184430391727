(** Grammar of XML texts (XML 1.0, the fragment of M_Xml), independent of the reader. *)
From Coq Require Import Ascii String List ZArith Bool.
From Verif Require Import Base M_Text M_Loaders.
Import ListNotations.
Local Open Scope Z_scope.

Definition xblank (c : ascii) : Prop := In (code c) [32; 9; 10; 13].
Definition xblanks (w : text) : Prop := Forall xblank w.
Definition xchar (c : ascii) : Prop := In (code c) [9; 10; 13] \/ 32 <= code c <= 127.
Definition start_char (c : ascii) : Prop := 65 <= code c <= 90 \/ 97 <= code c <= 122 \/ c = "_"%char.
Definition inner_char (c : ascii) : Prop := start_char c \/ 48 <= code c <= 57 \/ c = "-"%char \/ c = "."%char.
Definition xml_name (n : string) : Prop := exists c r, list_ascii_of_string n = c :: r /\ start_char c /\ Forall inner_char r.
(** Ends of lines: carriage return and newline together, or a carriage return alone, are a newline. *)
Inductive lines_read : text -> text -> Prop :=
| lr_end : lines_read [] []
| lr_pair t u : lines_read t u -> lines_read (ascii_of_nat 13 :: newline :: t) (newline :: u)
| lr_alone t u : (forall r, t <> newline :: r) -> lines_read t u -> lines_read (ascii_of_nat 13 :: t) (newline :: u)
| lr_other c t u : c <> ascii_of_nat 13 -> lines_read t u -> lines_read (c :: t) (c :: u).
(** Numerals and references. *)
Definition digit_table : list (ascii * Z) :=
  [("0", 0); ("1", 1); ("2", 2); ("3", 3); ("4", 4); ("5", 5); ("6", 6); ("7", 7); ("8", 8); ("9", 9);
   ("a", 10); ("b", 11); ("c", 12); ("d", 13); ("e", 14); ("f", 15);
   ("A", 10); ("B", 11); ("C", 12); ("D", 13); ("E", 14); ("F", 15)]%char.
Definition numeral (base : Z) (ds : text) (v : Z) : Prop :=
  ds <> [] /\ exists ns, Forall2 (fun c n => In (c, n) digit_table /\ n < base) ds ns /\ v = fold_left (fun a n => base * a + n) ns 0.
Definition entities : list (string * ascii) := [("amp"%string, "&"); ("lt"%string, "<"); ("gt"%string, ">"); ("quot"%string, """"); ("apos"%string, "'")]%char.
Inductive ref_text : text -> ascii -> Prop :=
| ref_entity n c : In (n, c) entities -> ref_text (lit "&" ++ lit n ++ lit ";") c
| ref_decimal ds c : numeral 10 ds (code c) -> xchar c -> ref_text (lit "&#" ++ ds ++ lit ";") c
| ref_hex ds c : numeral 16 ds (code c) -> xchar c -> ref_text (lit "&#x" ++ ds ++ lit ";") c.
(** Attributes. *)
Definition flat (c : ascii) (d : ascii) : Prop := (xblank c /\ d = " "%char) \/ (~ xblank c /\ d = c).
Inductive value_text (q : ascii) : text -> text -> Prop :=
| val_end : value_text q [] []
| val_char c d t v : xchar c -> c <> q -> c <> "&"%char -> c <> "<"%char -> flat c d -> value_text q t v -> value_text q (c :: t) (d :: v)
| val_ref s c t v : ref_text s c -> value_text q t v -> value_text q (s ++ t) (c :: v).
Inductive attrs_text : text -> list (string * text) -> Prop :=
| attrs_end : attrs_text [] []
| attrs_more w n w1 w2 q s v t l : xblanks w -> w <> [] -> xml_name n -> xblanks w1 -> xblanks w2 -> q = """"%char \/ q = "'"%char ->
    value_text q s v -> attrs_text t l ->
    attrs_text (w ++ lit n ++ w1 ++ lit "=" ++ w2 ++ [q] ++ s ++ [q] ++ t) ((n, v) :: l).
(** Comments: no two dashes inside. *)
Definition comment_text (t : text) : Prop :=
  exists b, t = lit "<!--" ++ b ++ lit "-->" /\ Forall xchar b /\ forall u v, b ++ lit "-" <> u ++ lit "--" ++ v.
(** The text is what comes before the first child; an element without any has no text. *)
Definition holds (l : list (ascii + xml)) (txt : option text) (kids : list xml) : Prop :=
  exists before rest, l = map inl before ++ rest /\ (forall c r, rest <> inl c :: r) /\
    txt = match before with [] => None | _ => Some before end /\ kids = flat_map (fun p => match p with inl _ => [] | inr x => [x] end) rest.
(** Elements. *)
Inductive content_text : text -> list (ascii + xml) -> Prop :=
| con_end : content_text [] []
| con_char c t l : xchar c -> c <> "&"%char -> c <> "<"%char -> (forall r, c :: t <> lit "]]>" ++ r) -> content_text t l -> content_text (c :: t) (inl c :: l)
| con_ref s c t l : ref_text s c -> content_text t l -> content_text (s ++ t) (inl c :: l)
| con_comment s t l : comment_text s -> content_text t l -> content_text (s ++ t) l
| con_kid s x t l : element_text s x -> content_text t l -> content_text (s ++ t) (inr x :: l)
with element_text : text -> xml -> Prop :=
| el_empty n a al w : xml_name n -> attrs_text a al -> NoDup (map fst al) -> xblanks w ->
    element_text (lit "<" ++ lit n ++ a ++ w ++ lit "/>") (Elem n al None [])
| el_full n a al w c l txt kids w' : xml_name n -> attrs_text a al -> NoDup (map fst al) -> xblanks w -> content_text c l -> holds l txt kids -> xblanks w' ->
    element_text (lit "<" ++ lit n ++ a ++ w ++ lit ">" ++ c ++ lit "</" ++ lit n ++ w' ++ lit ">") (Elem n al txt kids).
Inductive misc_text : text -> Prop :=
| misc_end : misc_text []
| misc_blank c t : xblank c -> misc_text t -> misc_text (c :: t)
| misc_comment s t : comment_text s -> misc_text t -> misc_text (s ++ t).
Definition declaration_text (t : text) : Prop :=
  t = [] \/ exists c b, t = lit "<?xml" ++ [c] ++ b ++ lit "?>" /\ xblank c /\ Forall xchar b /\ forall u v, b ++ lit "?" <> u ++ lit "?>" ++ v.
(** A document and the place where its root ends. *)
Definition document_parts (t front root back : text) (x : xml) : Prop :=
  t = front ++ root ++ back /\ (exists d m, front = d ++ m /\ declaration_text d /\ misc_text m) /\ element_text root x /\ misc_text back.
Definition xml_document (t : text) (x : xml) : Prop := exists u front root back, lines_read t u /\ document_parts u front root back x.
(** Elements that can be written: names are names, texts have characters of XML and no carriage
    return (a reader takes it for a newline). *)
Definition data_char (c : ascii) : Prop := xchar c /\ code c <> 13.
Inductive writable : xml -> Prop :=
| write_elem n a txt kids : xml_name n -> Forall (fun p => xml_name (fst p) /\ Forall xchar (snd p)) a -> NoDup (map fst a) ->
    match txt with Some w => Forall data_char w | None => True end -> Forall writable kids -> writable (Elem n a txt kids).
(** The same elements with other blanks before the first children; an empty text is none. *)
Definition no_words (t : option text) : Prop := match t with None => True | Some w => xblanks w end.
Inductive respaced : xml -> xml -> Prop :=
| rs_leaf n a txt txt' : txt' = txt \/ (txt = Some [] /\ txt' = None) -> respaced (Elem n a txt []) (Elem n a txt' [])
| rs_kids n a txt txt' kids kids' : kids <> [] -> txt' = txt \/ (no_words txt /\ no_words txt') -> Forall2 respaced kids kids' ->
    respaced (Elem n a txt kids) (Elem n a txt' kids').
