(** The DOT language of Graphviz, and what the drawing of a tree says when it is read.

    Only the part of the language that is needed: no comments, ports, chains of edges or edges of
    subgraphs.  A text that uses them is not read. *)
From Coq Require Import Ascii String List ZArith Bool.
From Verif Require Import Base Num M_Text M_Graphviz.
Import ListNotations.
Local Open Scope Z_scope.

(** ** Tokens *)
Inductive token : Type := TWord (t : text) | TQuoted (t : text) | THtml (t : text) | TArrow | TMark (c : ascii).
Definition letter (c : ascii) : bool :=
  (65 <=? code c) && (code c <=? 90) || (97 <=? code c) && (code c <=? 122) || (code c =? 95) || (128 <=? code c).
Definition word_char (c : ascii) : bool := letter c || is_digit c || (code c =? 46).
Definition mark_char (c : ascii) : bool := existsb (Ascii.eqb c) (lit "{}[];,=").
(** A name, or a number: an optional minus, then digits with an optional dot. *)
Fixpoint all_digits (t : text) : bool := match t with [] => true | c :: r => is_digit c && all_digits r end.
Fixpoint number_rest (some : bool) (t : text) : bool :=
  match t with
  | [] => some
  | c :: r => if is_digit c then number_rest true r
              else (code c =? 46) && all_digits r && (some || match r with [] => false | _ => true end)
  end.
Definition word_ok (t : text) : bool :=
  match t with
  | [] => false
  | c :: r => if letter c then forallb (fun d => letter d || is_digit d) r
              else if code c =? 45 then number_rest false r else number_rest false t
  end.
(** What the reader is in the middle of (the characters read so far, backwards). *)
Inductive mode : Type := Between | InWord (acc : text) | InQuotes (acc : text) | Escaped (acc : text) | InHtml (depth : nat) (acc : text) | Dash.
Definition step_between (c : ascii) : option (list token * mode) :=
  if is_space c then Some ([], Between)
  else if code c =? 34 then Some ([], InQuotes [])
  else if code c =? 60 then Some ([], InHtml 0 [])
  else if code c =? 45 then Some ([], Dash)
  else if mark_char c then Some ([TMark c], Between)
  else if word_char c then Some ([], InWord [c])
  else None.
Definition step (m : mode) (c : ascii) : option (list token * mode) :=
  match m with
  | Between => step_between c
  | InWord acc =>
      if word_char c then Some ([], InWord (c :: acc))
      else if word_ok (rev acc) then match step_between c with Some (ts, m') => Some (TWord (rev acc) :: ts, m') | None => None end else None
  | Dash => if code c =? 62 then Some ([TArrow], Between) else if is_digit c || (code c =? 46) then Some ([], InWord [c; "-"%char]) else None
  | InQuotes acc =>
      if code c =? 34 then Some ([TQuoted (rev acc)], Between) else if code c =? 92 then Some ([], Escaped acc) else Some ([], InQuotes (c :: acc))
  | Escaped acc =>
      if code c =? 34 then Some ([], InQuotes (c :: acc)) else if code c =? 10 then Some ([], InQuotes acc) else Some ([], InQuotes (c :: "\"%char :: acc))
  | InHtml d acc =>
      if code c =? 60 then Some ([], InHtml (S d) (c :: acc))
      else if code c =? 62 then match d with O => Some ([THtml (rev acc)], Between) | S d' => Some ([], InHtml d' (c :: acc)) end
      else Some ([], InHtml d (c :: acc))
  end.
Fixpoint run (m : mode) (t : text) : option (list token * mode) :=
  match t with
  | [] => Some ([], m)
  | c :: r =>
      match step m c with
      | None => None
      | Some (ts, m') => match run m' r with Some (us, m'') => Some (ts ++ us, m'') | None => None end
      end
  end.
Definition tokens (t : text) : option (list token) :=
  match run Between t with
  | Some (ts, Between) => Some ts
  | Some (ts, InWord acc) => if word_ok (rev acc) then Some (ts ++ [TWord (rev acc)]) else None
  | _ => None
  end.

(** ** Statements *)
(** A quoted word means the same as the plain one; between < and > it is another kind of text. *)
Inductive word : Type := Word (t : text) | Html (t : text).
Inductive stmt : Type :=
| SNode (n : word) (l : list (word * word))
| SEdge (a b : word) (l : list (word * word))
| SDefault (what : text) (l : list (word * word))
| SSet (k v : word)
| SSub (l : list stmt).
Definition lower (c : ascii) : ascii := if (65 <=? code c) && (code c <=? 90) then ascii_of_nat (nat_of_ascii c + 32) else c.
Definition text_eqb (a b : text) : bool := if list_eq_dec ascii_dec a b then true else false.
Definition is_keyword (t : text) : bool :=
  existsb (text_eqb (map lower t)) [lit "node"; lit "edge"; lit "graph"; lit "digraph"; lit "subgraph"; lit "strict"].
Definition as_word (k : token) : option word :=
  match k with
  | TWord t => if is_keyword t then None else Some (Word t)
  | TQuoted t => Some (Word t)
  | THtml t => Some (Html t)
  | _ => None
  end.
Definition as_default (k : token) : option text :=
  match k with TWord t => if existsb (text_eqb (map lower t)) [lit "node"; lit "edge"; lit "graph"] then Some (map lower t) else None | _ => None end.
Definition is_mark (c : ascii) (k : token) : bool := match k with TMark d => Ascii.eqb d c | _ => false end.
Definition skip_mark (p : token -> bool) (l : list token) : list token :=
  match l with k :: r => if p k then r else l | [] => l end.
(** name = value, separated by commas, semicolons or nothing, up to the bracket. *)
Fixpoint attributes (l : list token) : option (list (word * word) * list token) :=
  match l with
  | k :: r =>
      if is_mark "]" k then Some ([], r) else
      match r with
      | q :: v :: r' =>
          match as_word k, is_mark "=" q, as_word v with
          | Some a, true, Some b =>
              match (match r' with s :: r'' => if is_mark "," s || is_mark ";" s then attributes r'' else attributes r' | [] => None end) with
              | Some (l', rest) => Some ((a, b) :: l', rest)
              | None => None
              end
          | _, _, _ => None
          end
      | _ => None
      end
  | [] => None
  end.
Definition attributes_opt (l : list token) : option (list (word * word) * list token) :=
  match l with k :: r => if is_mark "[" k then attributes r else Some ([], l) | [] => Some ([], l) end.
Fixpoint statements (fuel : nat) (l : list token) : option (list stmt * list token) :=
  match fuel with
  | O => None
  | S f =>
      let next s r := match statements f (skip_mark (is_mark ";") r) with Some (l', r') => Some (s :: l', r') | None => None end in
      match l with
      | [] => None
      | k :: r =>
          if is_mark "}" k then Some ([], r)
          else if is_mark "{" k then match statements f r with Some (sub, r') => next (SSub sub) r' | None => None end
          else match as_default k with
          | Some what => match r with b :: _ => if is_mark "[" b then match attributes_opt r with Some (a, r') => next (SDefault what a) r' | None => None end else None | [] => None end
          | None =>
              match as_word k with
              | None => None
              | Some a =>
                  match r with
                  | TArrow :: j :: r' =>
                      match as_word j, attributes_opt r' with Some b, Some (at_, r'') => next (SEdge a b at_) r'' | _, _ => None end
                  | q :: v :: r' =>
                      if is_mark "=" q then match as_word v with Some b => next (SSet a b) r' | None => None end
                      else match attributes_opt r with Some (at_, r'') => next (SNode a at_) r'' | None => None end
                  | _ => match attributes_opt r with Some (at_, r'') => next (SNode a at_) r'' | None => None end
                  end
              end
          end
      end
  end.
(** One directed graph: its name and its statements. *)
Definition read_dot (t : text) : option (word * list stmt) :=
  match tokens t with
  | Some (TWord d :: n :: b :: r) =>
      if text_eqb (map lower d) (lit "digraph") && is_mark "{" b then
        match as_word n, statements (S (length r)) r with Some name, Some (l, []) => Some (name, l) | _, _ => None end
      else None
  | _ => None
  end.

(** ** Labels *)
Inductive glyph : Type := Glyph (sub : bool) (c : ascii) | LessEq.
Definition plain (t : text) : list glyph := map (Glyph false) t.
Definition below (t : text) : list glyph := map (Glyph true) t.
Fixpoint strip_prefix (p t : text) : option text :=
  match p, t with
  | [], _ => Some t
  | _, [] => None
  | a :: p', b :: t' => if Ascii.eqb a b then strip_prefix p' t' else None
  end.
(** Entities; others are not read. *)
Definition entity (t : text) : option (list glyph * text) :=
  match strip_prefix (lit "&#35;") t, strip_prefix (lit "&#37;") t, strip_prefix (lit "&le;") t, strip_prefix (lit "&amp;") t with
  | Some r, _, _, _ => Some (plain (lit "#"), r)
  | _, Some r, _, _ => Some (plain (lit "%"), r)
  | _, _, Some r, _ => Some ([LessEq], r)
  | _, _, _, Some r => Some (plain (lit "&"), r)
  | _, _, _, _ => None
  end.
(** An ordinary label: \n, \l and \r end a line, \\ is a backslash; \N, \G and the like are not read. *)
Fixpoint plain_lines (fuel : nat) (cur : list glyph) (t : text) : option (list (list glyph)) :=
  match fuel, t with
  | O, _ => None
  | S _, [] => Some [rev cur]
  | S f, c :: r =>
      if code c =? 92 then
        match r with
        | d :: r' => if existsb (Ascii.eqb d) (lit "nlr") then match plain_lines f [] r' with Some l => Some (rev cur :: l) | None => None end
                     else if code d =? 92 then plain_lines f (Glyph false d :: cur) r' else None
        | [] => None
        end
      else if code c =? 10 then match plain_lines f [] r with Some l => Some (rev cur :: l) | None => None end
      else if code c =? 38 then match entity t with Some (g, r') => plain_lines f (rev g ++ cur) r' | None => None end
      else plain_lines f (Glyph false c :: cur) r
  end.
(** A label in HTML: line breaks, subscripts and sizes. *)
Fixpoint html_lines (fuel : nat) (sub : bool) (cur : list glyph) (t : text) : option (list (list glyph)) :=
  match fuel, t with
  | O, _ => None
  | S _, [] => Some [rev cur]
  | S f, c :: r =>
      if code c =? 60 then
        match strip_prefix (lit "<br/>") t, strip_prefix (lit "<SUB>") t, strip_prefix (lit "</SUB>") t, strip_prefix (lit "<FONT POINT-SIZE=""10"">") t, strip_prefix (lit "</FONT>") t with
        | Some r', _, _, _, _ => match html_lines f sub [] r' with Some l => Some (rev cur :: l) | None => None end
        | _, Some r', _, _, _ => html_lines f true cur r'
        | _, _, Some r', _, _ => html_lines f false cur r'
        | _, _, _, Some r', _ => html_lines f sub cur r'
        | _, _, _, _, Some r' => html_lines f sub cur r'
        | _, _, _, _, _ => None
        end
      else if code c =? 62 then None
      else if code c =? 38 then match entity t with Some (g, r') => html_lines f sub (rev g ++ cur) r' | None => None end
      else html_lines f sub (Glyph sub c :: cur) r
  end.
Definition label_lines (w : word) : option (list (list glyph)) :=
  match w with Word t => plain_lines (S (length t)) [] t | Html t => html_lines (S (length t)) false [] t end.
(** #rrggbbaa *)
Definition hex_value (c : ascii) : option Z :=
  if is_digit c then Some (code c - 48) else if (97 <=? code c) && (code c <=? 102) then Some (code c - 87)
  else if (65 <=? code c) && (code c <=? 70) then Some (code c - 55) else None.
Definition hex_pair (a b : ascii) : option Z := match hex_value a, hex_value b with Some x, Some y => Some (16 * x + y) | _, _ => None end.
Definition rgba (t : text) : option (Z * Z * Z * Z) :=
  match t with
  | [h; r1; r2; g1; g2; b1; b2; a1; a2] =>
      if code h =? 35 then
        match hex_pair r1 r2, hex_pair g1 g2, hex_pair b1 b2, hex_pair a1 a2 with Some r, Some g, Some b, Some a => Some (r, g, b, a) | _, _, _, _ => None end
      else None
  | _ => None
  end.

(** ** What the statements must say *)
Section Spec.
Context {N : num}.
Variables (shown : Z -> N -> text) (percent : Z -> Z -> text) (paint : fill (N:=N) -> Z * Z * Z * Z).

(** The lines in the box of a node. *)
Definition box_lines (special : bool) (prec : Z) (b : box N) : list (list glyph) :=
  match b_id b with Some i => [plain (lit "node #" ++ show_Z i)] | None => [] end ++
  match b_count b with
  | Some (c, p) => [plain (lit "counts = " ++ show_Z c ++ match p with Some h => lit " (" ++ percent c h ++ lit "%)" | None => [] end)]
  | None => []
  end ++
  match b_body b with
  | Output v => [plain (lit "output = " ++ shown prec v)]
  | Test f v =>
      [match f with inl name => plain name | inr i => if special then plain (lit "f") ++ below (show_Z i) ++ plain (lit " ") else plain (lit "f[" ++ show_Z i ++ lit "] ") end ++
       plain (lit " ") ++ (if special then [LessEq] else plain (lit "<=")) ++ plain (lit " ") ++ plain (shown prec v)]
  end.
Definition filled_as (f : fill (N:=N)) (l : list (word * word)) : Prop :=
  match f with
  | NoFill => l = []
  | White => exists t, l = [(Word (lit "fillcolor"), Word t)] /\ rgba t = Some (255, 255, 255, 255)
  | Grey => exists t, l = [(Word (lit "fillcolor"), Word t)] /\ t = lit "#C0C0C0"
  | _ => exists t, l = [(Word (lit "fillcolor"), Word t)] /\
           let '(r, g, b, a) := paint f in rgba t = Some (r, g, b, a * 3 / 4)
  end.
Definition names (i : Z) : word := Word (show_Z i).
Definition depicts (special : bool) (prec : Z) (x : item N) (s : stmt) : Prop :=
  match x with
  | Box i b => exists w l, s = SNode (names i) ((Word (lit "label"), w) :: l) /\ label_lines w = Some (box_lines special prec b) /\ filled_as (b_fill b) l
  | Dots i f => exists l, s = SNode (names i) ((Word (lit "label"), Word (lit "(...)")) :: l) /\ filled_as f l
  | Arrow p c None => s = SEdge (names p) (names c) []
  | Arrow p c (Some yes) => exists angle, s = SEdge (names p) (names c)
      [(Word (lit "labeldistance"), Word (lit "2.5")); (Word (lit "labelangle"), angle); (Word (lit "headlabel"), Word (if yes then lit "True" else lit "False"))] /\
      angle = Word (if yes then lit "45" else lit "-45")
  | Rank _ ids => s = SSub (SSet (Word (lit "rank")) (Word (lit "same")) :: map (fun i => SNode (names i) []) ids)
  end.
(** Statements that only set defaults. *)
Definition decoration (s : stmt) : Prop := match s with SDefault _ _ => True | _ => False end.

(** Characters that can be written in a label as they are. *)
Definition harmless (special : bool) (c : ascii) : Prop :=
  32 <= code c /\ c <> "&"%char /\ if special then c <> "<"%char /\ c <> ">"%char else c <> """"%char /\ c <> "\"%char.
Definition number_char (c : ascii) : Prop := In c (lit "0123456789+-.einfa").
End Spec.
