(** Model of the XML files of models: what proxy_QuickRank.py writes with xml.etree.ElementTree, and
    what etree.iterparse (expat) reads for proxy_QuickRank.py and proxy_Jforests.py.

    Fragment of XML: ASCII texts and names without colons; elements, attributes, character data,
    the five entities, character references below 128, comments, one declaration at the start (its
    contents are not looked at).  CDATA sections, processing instructions, document types and
    namespaces are refused here.  The file is read as a whole: _count_nodes goes through all of it before
    anything is loaded. *)
From Coq Require Import Ascii String List ZArith Bool.
From Verif Require Import Base Num M_Text M_Ensemble M_Loaders.
Import ListNotations.
Local Open Scope Z_scope.

(** ** Writing *)
(** Elements with their tails. *)
Inductive node : Type := Nd (tag : string) (attrs : list (string * text)) (txt tail : option text) (kids : list node).
Fixpoint of_xml (x : xml) : node := let '(Elem tag a txt kids) := x in Nd tag a txt None (map of_xml kids).
Definition tab : ascii := ascii_of_nat 9.
(** "not t or not t.strip()". *)
Definition vacant (t : option text) : bool := match t with None => true | Some w => is_nil (py_strip w) end.
Definition set_tail (x : node) (t : option text) : node := let '(Nd tag a txt _ kids) := x in Nd tag a txt t kids.
(** "list(elem)[-1].tail = i". *)
Fixpoint last_tail (i : text) (l : list node) : list node :=
  match l with [] => [] | [x] => [set_tail x (Some i)] | x :: r => x :: last_tail i r end.
(** proxy_QuickRank.py 97-115: _xmlprettyprint. *)
Fixpoint pretty (level : nat) (x : node) : node :=
  let '(Nd tag a txt tail kids) := x in
  let i := newline :: repeat tab level in
  match kids with
  | [] => Nd tag a txt (match level with O => tail | _ => if vacant tail then Some i else tail end) []
  | _ => Nd tag a (if vacant txt then Some (i ++ [tab]) else txt) (if vacant tail then Some i else tail)
            (last_tail i (map (pretty (S level)) kids))
  end.

(** xml.etree.ElementTree: _escape_cdata and _escape_attrib. *)
Definition escape_data (c : ascii) : text :=
  if Ascii.eqb c "&" then lit "&amp;" else if Ascii.eqb c "<" then lit "&lt;" else if Ascii.eqb c ">" then lit "&gt;" else [c].
Definition escape_attr (c : ascii) : text :=
  if Ascii.eqb c """" then lit "&quot;" else
  if code c =? 13 then lit "&#13;" else if code c =? 10 then lit "&#10;" else if code c =? 9 then lit "&#09;" else escape_data c.
Definition name_text (n : string) : text := list_ascii_of_string n.
Definition attr_text (p : string * text) : text := lit " " ++ name_text (fst p) ++ lit "=""" ++ flat_map escape_attr (snd p) ++ lit """".
Definition data_text (t : option text) : text := match t with Some w => flat_map escape_data w | None => [] end.
(** xml.etree.ElementTree: _serialize_xml. *)
Fixpoint serialize (x : node) : text :=
  let '(Nd tag a txt tail kids) := x in
  lit "<" ++ name_text tag ++ flat_map attr_text a ++
  match txt, kids with
  | None, [] | Some [], [] => lit " />"
  | _, _ => lit ">" ++ data_text txt ++ flat_map serialize kids ++ lit "</" ++ name_text tag ++ lit ">"
  end ++ data_text tail.
Definition write_xml (x : xml) : text := serialize (pretty 0 (of_xml x)).

(** ** Reading *)
Notation "'opt' x <- a ; b" := (match a with Some x => b | None => None end) (at level 200, x pattern, a at level 100, b at level 200).
(** The text after the prefix [w]. *)
Fixpoint eat (w t : text) : option text :=
  match w, t with
  | [], _ => Some t
  | c :: w', d :: t' => if Ascii.eqb c d then eat w' t' else None
  | _, [] => None
  end.
Definition xspace (c : ascii) : bool := (code c =? 32) || (code c =? 9) || (code c =? 10) || (code c =? 13).
Definition xlegal (c : ascii) : bool := (code c =? 9) || (code c =? 10) || (code c =? 13) || ((32 <=? code c) && (code c <=? 127)).
Definition xletter (c : ascii) : bool := ((65 <=? code c) && (code c <=? 90)) || ((97 <=? code c) && (code c <=? 122)) || (code c =? 95).
Definition xname_char (c : ascii) : bool := xletter c || is_digit c || (code c =? 45) || (code c =? 46).
Definition skip_xspace (t : text) : text := snd (span xspace t).
(** Ends of lines become newlines before anything else. *)
Fixpoint end_of_lines (t : text) : text :=
  match t with
  | [] => []
  | c :: r => if code c =? 13 then match r with
                                   | d :: r' => if code d =? 10 then newline :: end_of_lines r' else newline :: end_of_lines r
                                   | [] => [newline]
                                   end
              else c :: end_of_lines r
  end.
Definition xname (t : text) : option (text * text) :=
  match t with
  | c :: r => if xletter c then let '(a, b) := span xname_char r in Some (c :: a, b) else None
  | [] => None
  end.
Definition xdigit (c : ascii) : Z :=
  if is_digit c then code c - 48 else if (97 <=? code c) && (code c <=? 102) then code c - 87 else if (65 <=? code c) && (code c <=? 70) then code c - 55 else 16.
Definition char_of (base : Z) (t : text) : option (ascii * text) :=
  let '(ds, r) := span (fun c => xdigit c <? base) t in
  let v := fold_left (fun a c => base * a + xdigit c) ds 0 in
  match ds with
  | [] => None
  | _ => opt r' <- eat (lit ";") r;
         if (v =? 9) || (v =? 10) || (v =? 13) || ((32 <=? v) && (v <=? 127)) then Some (ascii_of_nat (Z.to_nat v), r') else None
  end.
(** What follows an ampersand. *)
Definition reference (t : text) : option (ascii * text) :=
  match eat (lit "#x") t with
  | Some r => char_of 16 r
  | None => match eat (lit "#") t with
            | Some r => char_of 10 r
            | None => match eat (lit "amp;") t with Some r => Some ("&"%char, r) | None =>
                      match eat (lit "lt;") t with Some r => Some ("<"%char, r) | None =>
                      match eat (lit "gt;") t with Some r => Some (">"%char, r) | None =>
                      match eat (lit "quot;") t with Some r => Some (""""%char, r) | None =>
                      match eat (lit "apos;") t with Some r => Some ("'"%char, r) | None => None end end end end end
            end
  end.
(** The value of an attribute up to its quote: blanks become spaces. *)
Fixpoint avalue (fuel : nat) (q : ascii) (t : text) : option (text * text) :=
  match fuel, t with
  | S f, c :: r =>
      if Ascii.eqb c q then Some ([], r)
      else if Ascii.eqb c "&" then opt (d, r') <- reference r; opt (v, r2) <- avalue f q r'; Some (d :: v, r2)
      else if Ascii.eqb c "<" || negb (xlegal c) then None
      else opt (v, r') <- avalue f q r; Some ((if xspace c then " "%char else c) :: v, r')
  | _, _ => None
  end.
Definition is_quote (c : ascii) : bool := Ascii.eqb c """" || Ascii.eqb c "'".
Fixpoint attributes (fuel : nat) (t : text) : option (list (string * text) * text) :=
  match fuel with
  | O => None
  | S f =>
      let '(w, r) := span xspace t in
      if match r with c :: _ => Ascii.eqb c ">" || Ascii.eqb c "/" | [] => false end then Some ([], r)
      else if is_nil w then None
      else opt (n, r1) <- xname r;
           opt r2 <- eat (lit "=") (skip_xspace r1);
           match skip_xspace r2 with
           | q :: r3 => if is_quote q then
                          opt (v, r4) <- avalue (S (length r3)) q r3;
                          opt (l, r5) <- attributes f r4;
                          Some ((string_of_list_ascii n, v) :: l, r5)
                        else None
           | [] => None
           end
  end.
(** A comment after its "<!--": two dashes end it. *)
Fixpoint comment (t : text) : option text :=
  match t with
  | [] => None
  | c :: r => match eat (lit "--") t with
              | Some r' => eat (lit ">") r'
              | None => if xlegal c then comment r else None
              end
  end.
(** Characters and elements between a start tag and its end tag. *)
Definition piece : Type := (ascii + xml)%type.
Fixpoint data_of (l : list piece) : text := match l with inl c :: r => c :: data_of r | _ => [] end.
Fixpoint kids_of (l : list piece) : list xml := match l with [] => [] | inl _ :: r => kids_of r | inr x :: r => x :: kids_of r end.
(** Element.text: the characters before the first child, None if there are none. *)
Definition text_before (l : list piece) : option text := match data_of l with [] => None | t => Some t end.
Fixpoint distinct (l : list string) : bool :=
  match l with [] => true | x :: r => negb (existsb (String.eqb x) r) && distinct r end.
(** An element after its "<". *)
Definition element_with (content : text -> option (list piece * text)) (t : text) : option (xml * text) :=
  opt (n, r1) <- xname t;
  opt (al, r2) <- attributes (S (length r1)) r1;
  if negb (distinct (map fst al)) then None else
  match eat (lit "/>") r2 with
  | Some r3 => Some (Elem (string_of_list_ascii n) al None [], r3)
  | None =>
      opt r3 <- eat (lit ">") r2;
      opt (l, r4) <- content r3;
      opt r5 <- eat (lit "</" ++ n) r4;
      opt r6 <- eat (lit ">") (skip_xspace r5);
      Some (Elem (string_of_list_ascii n) al (text_before l) (kids_of l), r6)
  end.
Fixpoint content (fuel : nat) (t : text) : option (list piece * text) :=
  match fuel with
  | O => None
  | S f =>
      match eat (lit "</") t with
      | Some _ => Some ([], t)
      | None =>
      match eat (lit "<!--") t with
      | Some r => opt r' <- comment r; content f r'
      | None =>
      match eat (lit "<") t with
      | Some r => opt (x, r') <- element_with (content f) r; opt (l, r2) <- content f r'; Some (inr x :: l, r2)
      | None =>
      match eat (lit "&") t with
      | Some r => opt (d, r') <- reference r; opt (l, r2) <- content f r'; Some (inl d :: l, r2)
      | None =>
      match t with
      | [] => None
      | c :: r => match eat (lit "]]>") t with
                  | Some _ => None
                  | None => if xlegal c then opt (l, r2) <- content f r; Some (inl c :: l, r2) else None
                  end
      end end end end end
  end.
(** Blanks and comments before and after the root. *)
Fixpoint misc (fuel : nat) (t : text) : option text :=
  match fuel with
  | O => None
  | S f => let r := skip_xspace t in
           match eat (lit "<!--") r with
           | Some r' => opt r2 <- comment r'; misc f r2
           | None => Some r
           end
  end.
Fixpoint declaration_end (t : text) : option text :=
  match t with
  | [] => None
  | c :: r => match eat (lit "?>") t with Some r' => Some r' | None => if xlegal c then declaration_end r else None end
  end.
Definition declaration (t : text) : option text :=
  match eat (lit "<?xml") t with
  | Some (c :: r) => if xspace c then declaration_end r else None
  | Some [] => None
  | None => Some t
  end.
Definition read_document (t : text) : option xml :=
  opt t1 <- declaration t;
  opt t2 <- misc (S (length t1)) t1;
  opt t3 <- eat (lit "<") t2;
  opt (x, t4) <- element_with (content (S (length t3))) t3;
  opt t5 <- misc (S (length t4)) t4;
  if is_nil t5 then Some x else None.
Definition read_xml (t : text) : option xml := read_document (end_of_lines t).

(** ** Files *)
(** [Malformed] is xml.etree.ElementTree.ParseError. *)
Inductive opened (A : Type) : Type := Malformed | Parsed (a : A).
Arguments Malformed {A}.
Arguments Parsed {A} a.
Section Files.
Context {N : num}.
Variables (rd : text -> option N) (repr : N -> text).
(** proxy_QuickRank.py 39-95 and proxy_Jforests.py 36-113. *)
Definition quick_load_text (t : text) : opened (res (ensemble N)) :=
  match read_xml t with Some x => Parsed (quick_load rd x) | None => Malformed end.
(** In Jforests an element without text, before the place where the file is malformed, is reported first
    (AttributeError). *)
Definition jf_load_text (t : text) : opened (res (ensemble N)) :=
  match read_xml t with Some x => Parsed (jf_load rd x) | None => Malformed end.
(** proxy_QuickRank.py 117-167: the characters of the file. *)
Definition quick_save_text (m : model N) : res text := do x <- quick_save repr m; Ok (write_xml x).
End Files.
