(** Model of rankeval/dataset/_svmlight_format.cpp and svmlight_format.py, and of
    Dataset.load / Dataset.dump (rankeval/dataset/dataset.py).

    Cells and labels have an arbitrary type [V]; how a numeral becomes a value and
    how a value is printed are given by a record [fmt].

    Simplifications: opening / decompressing files is not modelled (a file is its
    text); [next_feature] and vector sizes are unbounded integers except in the
    places of reshape_data where the code narrows them to int; the ownership
    machinery (VectorOwner, to_1d_array) is dropped. *)
From Coq Require Import Ascii String List ZArith Bool.
From Verif Require Import Base M_Text M_Dataset.
Import ListNotations.
Set Implicit Arguments.
Local Open Scope Z_scope.

(** Conversions between text and values.
    [rd_label]: float from a numeral, [None] when istream sets failbit (overflow).
    [rd_value]: double from a numeral, then stored in a vector<float>.
    [clamp]: svmlight_format.py 101, +inf becomes the largest float.
    [show]: [out << v] with precision 9 (%.9g). *)
Record fmt (V : Type) : Type := mkFmt {
  vzero : V;
  rd_label : numtok -> option V;
  rd_value : numtok -> V;
  clamp : V -> V;
  show : V -> text
}.

Section Svmlight.
Context {V : Type} (F : fmt V).

(** The vectors filled by parse_line (data, labels, qids) and max_feature. *)
Record lstate : Type := mkL {
  l_data : list V; l_labels : list V; l_qids : list Z; l_max : Z
}.
Definition l_init : lstate := mkL [] [] [] 0.

(** std::copy(src, src + len, dst) on floats: libstdc++ uses memmove, so
    overlapping ranges are copied as if through a temporary. *)
Definition copy_block (data : list V) (src len dst : Z) : res (list V) :=
  let n := Z.of_nat (length data) in
  if (src <? 0) || (dst <? 0) || (n <? src + len) || (n <? dst + len) || (len <? 0)
  then Err MemFault
  else Ok (firstn (Z.to_nat dst) data
           ++ firstn (Z.to_nat len) (skipn (Z.to_nat src) data)
           ++ skipn (Z.to_nat (dst + len)) data).

(** _svmlight_format.cpp 225-228: zero the cells [pos, pos + k). *)
Definition zero_cells (data : list V) (pos : Z) (k : nat) : res (list V) :=
  foldM (fun d j => mem_set d (pos + Z.of_nat j) (vzero F)) (seq 0 k) data.

(** _svmlight_format.cpp 220-233: one iteration of the loop on rows;
    the state is (data, it, move_counter). *)
Definition reshape_step (old_nf new_nf per_row : Z) (s : list V * Z * Z) (i : nat)
  : res (list V * Z * Z) :=
  let '(data, it, move) := s in
  let window := if Nat.eqb i 0 then new_nf else old_nf in
  do data1 <- (if 0 <? move then copy_block data it window (it + move) else Ok data);
  do data2 <- (if Nat.eqb i 0 then Ok data1
               else zero_cells data1 (it + move + old_nf) (Z.to_nat per_row));
  Ok (data2, it - old_nf, move - per_row).

(** _svmlight_format.cpp 208-234: reshape_data.  The division by zero (a crash) is
    reported as ZeroDivisionError. *)
Definition reshape_data (data : list V) (old_nf new_nf : Z) : res (list V) :=
  if old_nf =? 0 then Err ZeroDivisionError else
  let rows_to_fix := i32 (u64 (Z.of_nat (length data) - new_nf) / old_nf) in
  let cells_to_add := i32 (rows_to_fix * (new_nf - old_nf)) in
  if rows_to_fix =? 0 then Err ZeroDivisionError else
  let per_row := Z.quot cells_to_add rows_to_fix in
  let data1 := data ++ repeat (vzero F) (Z.to_nat cells_to_add) in
  let it := Z.of_nat (length data1) - new_nf - cells_to_add in
  do s <- foldM (reshape_step old_nf new_nf per_row)
                (seq 0 (Z.to_nat (rows_to_fix + 1))) (data1, it, cells_to_add);
  let '(d, _, _) := s in Ok d.

(** sscanf(token, "%u:%lf", &idx, &x) == 2, line 288. *)
Definition scan_pair (tok : text) : option (Z * numtok) :=
  match scan_uint tok with
  | Some (idx, ":"%char :: r) =>
      match scan_double r with Some x => Some (idx, x) | None => None end
  | _ => None
  end.

(** sscanf(token, "qid:%u", &idx) == 1, line 278. *)
Definition scan_qid (tok : text) : option Z :=
  match strip (lit "qid:") tok with
  | Some r => match scan_uint r with Some (q, _) => Some q | None => None end
  | None => None
  end.

(** Lines 283-302: the loop on the feature tokens; state (data, next_feature).  The
    exceptions are std::invalid_argument, turned into RuntimeError at 363-368. *)
Definition feature_step (s : list V * Z) (tok : text) : res (list V * Z) :=
  let '(data, next) := s in
  match scan_pair tok with
  | Some (idx, x) =>
      Ok (data ++ repeat (vzero F) (Z.to_nat (idx - next)) ++ [rd_value F x],
          Z.max next idx + 1)
  | None => Err RuntimeError
  end.

(** Lines 240-313: parse_line. *)
Definition parse_line (line : text) (st : lstate) : res lstate :=
  match line with
  | [] => Err RuntimeError
  | "#"%char :: _ => Ok st
  | _ =>
    let body := before "#" line in
    match istream_float body with
    | None => Err RuntimeError
    | Some (yn, rest) =>
      match rd_label F yn with
      | None => Err RuntimeError
      | Some y =>
        match words rest with
        | [] => Err RuntimeError
        | tok :: toks =>
          let '(qids, feats) := match scan_qid tok with
                                | Some q => (l_qids st ++ [q], toks)
                                | None => (l_qids st, tok :: toks)
                                end in
          do s <- foldM feature_step feats (l_data st, 1);
          let '(data, next) := s in
          let max := l_max st in
          let data1 := data ++ repeat (vzero F) (Z.to_nat (max + 1 - next)) in
          let next1 := Z.max next (max + 1) in
          do data2 <- (if (0 <? max) && (max <? next1 - 1)
                       then reshape_data data1 max (next1 - 1) else Ok data1);
          Ok (mkL data2 (l_labels st ++ [y]) qids (Z.max (next1 - 1) max))
        end
      end
    end
  end.

(** Lines 318-334: parse_file.  A line is read as a C string (it stops at a NUL
    byte); an empty one ends the loop. *)
Definition c_string (l : text) : text := before nul l.
Fixpoint parse_lines (ls : list text) (st : lstate) : res lstate :=
  match ls with
  | [] => Ok st
  | l :: r => let line := c_string l in
              if is_nil line then Ok st
              else do st' <- parse_line line st; parse_lines r st'
  end.
Definition parse_file (f : text) : res lstate := parse_lines (file_lines f) l_init.

(** Row-major reading of [n] rows of [w] cells: [data.shape = (n, w)]. *)
Fixpoint chunks (n w : nat) (data : list V) : list (list V) :=
  match n with
  | O => []
  | S n' => firstn w data :: chunks n' w (skipn w data)
  end.

(** svmlight_format.py 76-106: load_svmlight_file with query_id=True: the matrix
    with its number of columns, labels and query ids. *)
Definition load_svmlight_file (f : text) : res (nat * list (list V) * list V * list Z) :=
  do st <- parse_file f;
  let n_samples := length (l_labels st) in
  let size := length (l_data st) in
  if Nat.eqb n_samples 0 then Err ZeroDivisionError
  else
    let n_features := Nat.div size n_samples in
    if negb (Nat.eqb (n_samples * n_features) size) then Err ValueError
    else Ok (n_features, map (map (clamp F)) (chunks n_samples n_features (l_data st)),
             l_labels st, l_qids st).

(** svmlight_format.py 109-154: load_svmlight_files, the list of the parts.
    [next(files)] of an empty iterable raises StopIteration (a PlainException). *)
Definition load_svmlight_files (fs : list text)
  : res (list (nat * list (list V) * list V * list Z)) :=
  match fs with
  | [] => Err PlainException
  | _ => mapM load_svmlight_file fs
  end.

(** dataset.py 86-113: Dataset.load with format="svmlight". *)
Definition ds_load (f : text) : res (dataset V) :=
  do p <- load_svmlight_file f;
  let '(nf, X, y, ids) := p in ds_init nf X y ids.

(** _svmlight_format.cpp 404-418: the text of row [i]. *)
Definition dump_row (zero_based : bool) (y : list V) (qids : list Z) (i : nat) (row : list V)
  : res text :=
  do yi <- mem_get y (Z.of_nat i);
  do head <- (if Nat.ltb 1 (length qids)
              then do q <- mem_get qids (Z.of_nat i);
                   Ok (show F yi ++ lit " qid:" ++ show_Z q ++ lit " ")
              else Ok (show F yi ++ lit " "));
  Ok (head
      ++ flat_map (fun p => show_Z (Z.of_nat (if zero_based then fst p else S (fst p)))
                            ++ lit ":" ++ show F (snd p) ++ lit " ")
                  (combine (seq 0 (length row)) row)
      ++ [newline]).

(** svmlight_format.py 157-203 and _svmlight_format.cpp 378-441: dump_svmlight_file.
    [qids] is empty when query_id is None.  The number of qids and labels is not
    compared with the number of rows. *)
Definition dump_svmlight_file (zero_based : bool) (X : list (list V)) (y : list V)
  (qids : list Z) : res text :=
  do ls <- mapM (fun p => dump_row zero_based y (map i32 qids) (fst p) (snd p))
                (combine (seq 0 (length X)) X);
  Ok (concat ls).

(** dataset.py 136-165: Dataset.dump; [junk] is the uninitialised array of line 156. *)
Definition ds_dump (junk : list Z) (d : dataset V) : res text :=
  dump_svmlight_file false (ds_X d) (ds_y d) (unroll i32 junk d).

End Svmlight.
