(** Model of dataset/write_json_dataset_catalogue.py and of the catalogue as
    datasets_fetcher.py 25-29 reads it back: json.dump and json.load of dictionaries whose values
    are strings and dictionaries (Python 3; characters are the code points below 256). *)
From Coq Require Import Ascii String List ZArith Bool.
From Verif Require Import Base M_Text M_Fetcher.
Import ListNotations.
Local Open Scope Z_scope.

(** A dictionary is the list of its items, in the order of insertion. *)
Inductive json : Type := JStr (t : text) | JObj (items : list (text * json)).

(** d[k] = v *)
Fixpoint dict_set {A} (d : list (text * A)) (k : text) (v : A) : list (text * A) :=
  match d with
  | [] => [(k, v)]
  | (k', v') :: r => if list_eq_dec ascii_dec k' k then (k', v) :: r else (k', v') :: dict_set r k v
  end.
Definition dict_get {A} (d : list (text * A)) (k : text) : option A :=
  match find (fun e => if list_eq_dec ascii_dec (fst e) k then true else false) d with Some e => Some (snd e) | None => None end.

(** Lines 16-83: the four entries. *)
Definition entry_of_strings (l : list (string * string)) : list (text * json) := map (fun p => (lit (fst p), JStr (lit (snd p)))) l.
Definition istella_full : list (text * json) := entry_of_strings
  [("TRAIN_FILE", "full/train.txt"); ("TEST_FILE", "full/test.txt"); ("VALIDATION_FILE", "None"); ("LICENSE_FILE", "istella-letor-LA.txt");
   ("DATASET_ARCHIVE_NAME", "istella-letor.tar.gz"); ("MODELS_ARCHIVE_NAME", "istella-letor-models.tar.gz");
   ("DATASET_URL", "http://rankeval.isti.cnr.it/rankeval-datasets/istella-letor/dataset/istella-letor.tar.gz");
   ("MODELS_URL", "http://rankeval.isti.cnr.it/rankeval-datasets/istella-letor/models/istella-letor-models.tar.gz");
   ("BLOG_POST_URL", "http://blog.istella.it/istella-learning-to-rank-dataset/"); ("DATASET_NAME", "istella-full");
   ("DATASET_DESCRIPTION", "The istella LETOR full dataset"); ("DATASET_FORMAT", "svmlight")]%string.
Definition istella_sample : list (text * json) := entry_of_strings
  [("TRAIN_FILE", "sample/train.txt"); ("TEST_FILE", "sample/test.txt"); ("VALIDATION_FILE", "sample/vali.txt"); ("LICENSE_FILE", "istella-letor-LA.txt");
   ("DATASET_ARCHIVE_NAME", "istella-s-letor.tar.gz"); ("MODELS_ARCHIVE_NAME", "istella-s-letor-models.tar.gz");
   ("DATASET_URL", "http://rankeval.isti.cnr.it/rankeval-datasets/istella-s-letor/dataset/istella-s-letor.tar.gz");
   ("MODELS_URL", "http://rankeval.isti.cnr.it/rankeval-datasets/istella-s-letor/models/istella-s-letor-models.tar.gz");
   ("BLOG_POST_URL", "http://blog.istella.it/istella-learning-to-rank-dataset/"); ("DATASET_NAME", "istella-sample");
   ("DATASET_DESCRIPTION", "The istella LETOR sample dataset"); ("DATASET_FORMAT", "svmlight")]%string.
Definition msn10k : list (text * json) := entry_of_strings
  [("COMMON_SUBFOLDER_NAME", "Fold"); ("TRAIN_FILE", "train.txt"); ("TEST_FILE", "test.txt"); ("VALIDATION_FILE", "vali.txt");
   ("DATASET_ARCHIVE_NAME", "msn10k.tar.gz"); ("MODELS_ARCHIVE_NAME", "msn10k-models.tar.gz");
   ("DATASET_URL", "http://rankeval.isti.cnr.it/rankeval-datasets/msn10k/dataset/msn10k.tar.gz");
   ("MODELS_URL", "http://rankeval.isti.cnr.it/rankeval-datasets/msn10k/models/msn10k-models.tar.gz");
   ("BLOG_POST_URL", "https://www.microsoft.com/en-us/research/project/mslr/"); ("DATASET_NAME", "msn10k");
   ("DATASET_DESCRIPTION", "Microsoft Learning to Rank Datasets (WEB10K)"); ("DATASET_FORMAT", "svmlight")]%string.
Definition msn30k : list (text * json) := entry_of_strings
  [("COMMON_SUBFOLDER_NAME", "Fold"); ("TRAIN_FILE", "train.txt"); ("TEST_FILE", "test.txt"); ("VALIDATION_FILE", "vali.txt");
   ("DATASET_ARCHIVE_NAME", "msn30k.tar.gz"); ("MODELS_ARCHIVE_NAME", "msn30k-models.tar.gz");
   ("DATASET_URL", "http://rankeval.isti.cnr.it/rankeval-datasets/msn30k/dataset/msn30k.tar.gz");
   ("MODELS_URL", "http://rankeval.isti.cnr.it/rankeval-datasets/msn30k/models/msn30k-models.tar.gz");
   ("BLOG_POST_URL", "https://www.microsoft.com/en-us/research/project/mslr/"); ("DATASET_NAME", "msn30k");
   ("DATASET_DESCRIPTION", "Microsoft Learning to Rank Datasets (WEB30K)"); ("DATASET_FORMAT", "svmlight")]%string.
(** data[item['DATASET_NAME']] = item *)
Definition add_item (data : list (text * json)) (item : list (text * json)) : res (list (text * json)) :=
  match dict_get item (lit "DATASET_NAME") with
  | Some (JStr n) => Ok (dict_set data n (JObj item))
  | Some (JObj _) => Err TypeError
  | None => Err KeyError
  end.
(** Lines 85-90. *)
Definition written_catalogue : res (list (text * json)) := foldM add_item [istella_full; istella_sample; msn10k; msn30k] [].

(** json.dump(..., sort_keys=True, indent=4): characters outside ' '..'~' are escaped. *)
Definition hex_digit (n : Z) : ascii := ascii_of_nat (Z.to_nat (if n <? 10 then 48 + n else 87 + n)).
Definition escape (c : ascii) : text :=
  let n := code c in
  if n =? 34 then lit "\""" else if n =? 92 then lit "\\"
  else if n =? 8 then lit "\b" else if n =? 9 then lit "\t" else if n =? 10 then lit "\n" else if n =? 12 then lit "\f" else if n =? 13 then lit "\r"
  else if (32 <=? n) && (n <=? 126) then [c]
  else lit "\u00" ++ [hex_digit (n / 16); hex_digit (n mod 16)].
Definition quote (t : text) : text := lit """" ++ concat (map escape t) ++ lit """".
(** Order of Python strings. *)
Fixpoint text_leb (a b : text) : bool :=
  match a, b with
  | [], _ => true
  | _, [] => false
  | x :: a', y :: b' => if code x =? code y then text_leb a' b' else code x <? code y
  end.
Definition indent (n : nat) : text := newline :: repeat " "%char (4 * n).
Definition joined (sep : text) (l : list text) : text := match l with [] => [] | a :: r => a ++ concat (map (fun b => sep ++ b) r) end.
Fixpoint dumps (n : nat) (j : json) : text :=
  match j with
  | JStr t => quote t
  | JObj [] => lit "{}"
  | JObj items =>
      let shown := isort (fun p q : text * text => text_leb (fst p) (fst q)) (map (fun p => (fst p, dumps (S n) (snd p))) items) in
      lit "{" ++ indent (S n) ++ joined (lit "," ++ indent (S n)) (map (fun p => quote (fst p) ++ lit ": " ++ snd p) shown) ++ indent n ++ lit "}"
  end.

(** json.load: JSONDecodeError is a ValueError.  Of the escapes \u only those below 256 are
    modelled; other values than strings and objects are errors here. *)
Definition json_space (c : ascii) : bool := (code c =? 32) || (code c =? 9) || (code c =? 10) || (code c =? 13).
Definition skip_ws (l : text) : text := snd (span json_space l).
Definition hex_val (c : ascii) : option Z :=
  let n := code c in
  if (48 <=? n) && (n <=? 57) then Some (n - 48) else if (97 <=? n) && (n <=? 102) then Some (n - 87) else if (65 <=? n) && (n <=? 70) then Some (n - 55) else None.
(** py_scanstring, from the character after the opening quote. *)
Fixpoint scan_string (l : text) : res (text * text) :=
  match l with
  | [] => Err ValueError
  | c :: r =>
      let n := code c in
      if n =? 34 then Ok ([], r)
      else if n =? 92 then
        match r with
        | "u"%char :: a :: b :: d :: e :: r' =>
            match hex_val a, hex_val b, hex_val d, hex_val e with
            | Some 0, Some 0, Some x, Some y => do s <- scan_string r'; Ok (ascii_of_nat (Z.to_nat (16 * x + y)) :: fst s, snd s)
            | _, _, _, _ => Err ValueError
            end
        | e :: r' =>
            let k := code e in
            let put v := do s <- scan_string r'; Ok (ascii_of_nat v :: fst s, snd s) in
            if k =? 34 then put 34%nat else if k =? 92 then put 92%nat else if k =? 47 then put 47%nat else if k =? 98 then put 8%nat
            else if k =? 102 then put 12%nat else if k =? 110 then put 10%nat else if k =? 114 then put 13%nat else if k =? 116 then put 9%nat else Err ValueError
        | [] => Err ValueError
        end
      else if n <? 32 then Err ValueError
      else do s <- scan_string r; Ok (c :: fst s, snd s)
  end.
(** scan_once and JSONObject; the fuel bounds the number of values and items read. *)
Fixpoint scan_value (fuel : nat) (l : text) : res (json * text) :=
  match fuel with
  | O => Err ValueError
  | S fuel =>
      match l with
      | [] => Err ValueError
      | c :: r =>
          if code c =? 34 then do s <- scan_string r; Ok (JStr (fst s), snd s)
          else if code c =? 123 then
            match skip_ws r with
            | d :: r' => if code d =? 125 then Ok (JObj [], r') else scan_items fuel [] (d :: r')
            | [] => Err ValueError
            end
          else Err ValueError
      end
  end
(** From the opening quote of a key. *)
with scan_items (fuel : nat) (acc : list (text * json)) (l : text) : res (json * text) :=
  match fuel with
  | O => Err ValueError
  | S fuel =>
      match l with
      | c :: r =>
          if code c =? 34 then
            do k <- scan_string r;
            match skip_ws (snd k) with
            | d :: r1 =>
                if code d =? 58 then
                  do v <- scan_value fuel (skip_ws r1);
                  let acc := dict_set acc (fst k) (fst v) in
                  match skip_ws (snd v) with
                  | e :: r2 => if code e =? 125 then Ok (JObj acc, r2) else if code e =? 44 then scan_items fuel acc (skip_ws r2) else Err ValueError
                  | [] => Err ValueError
                  end
                else Err ValueError
            | [] => Err ValueError
            end
          else Err ValueError
      | [] => Err ValueError
      end
  end.
Definition loads (l : text) : res json :=
  do v <- scan_value (S (length l)) (skip_ws l);
  match skip_ws (snd v) with [] => Ok (fst v) | _ => Err ValueError end.

(** os.path.join(home, name): the parts of a relative name.  An absolute name, empty parts and
    "." are not modelled. *)
Fixpoint parts_from (cur : text) (l : text) : path :=
  match l with
  | [] => [rev cur]
  | c :: r => if code c =? 47 then rev cur :: parts_from [] r else parts_from (c :: cur) r
  end.
Definition parts (l : text) : path := parts_from [] l.
(** The keys that datasets_fetcher.py uses; those read with [] raise KeyError when missing. *)
Definition need (item : list (text * json)) (k : string) : res text :=
  match dict_get item (lit k) with Some (JStr t) => Ok t | Some (JObj _) => Err TypeError | None => Err KeyError end.
Definition may (item : list (text * json)) (k : string) : option text :=
  match dict_get item (lit k) with Some (JStr t) => Some t | _ => None end.
Definition to_entry (item : list (text * json)) : res entry :=
  do name <- need item "DATASET_NAME"; do archive <- need item "DATASET_ARCHIVE_NAME"; do url <- need item "DATASET_URL";
  do train <- need item "TRAIN_FILE"; do test <- need item "TEST_FILE"; do blog <- need item "BLOG_POST_URL";
  do march <- need item "MODELS_ARCHIVE_NAME"; do murl <- need item "MODELS_URL";
  Ok (mkEntry name archive url (parts train) (parts test) (option_map parts (may item "VALIDATION_FILE"))
        (may item "COMMON_SUBFOLDER_NAME") (option_map parts (may item "LICENSE_FILE")) blog march murl).
Definition to_catalogue (j : json) : res (list (text * entry)) :=
  match j with
  | JStr _ => Err TypeError
  | JObj items => mapM (fun p => match snd p with JObj item => do e <- to_entry item; Ok (fst p, e) | JStr _ => Err TypeError end) items
  end.
(** The file written by the script, and the catalogue read in it. *)
Definition catalogue_file : res text := do data <- written_catalogue; Ok (dumps 0%nat (JObj data)).
Definition shipped : res (list (text * entry)) := do file <- catalogue_file; do j <- loads file; to_catalogue j.
