(** Model of dataset/datasets_fetcher.py: the files of a data set are downloaded, unpacked and
    found again.  The file system is a list of named directories and files; a call is the list of
    the elementary changes it makes, in order, together with its result, so that a crash leaves the
    effect of some of the first changes. *)
From Coq Require Import Ascii String List ZArith Lia Bool.
From Verif Require Import Base M_Text.
Import ListNotations.
Open Scope Z_scope.

(** Paths are lists of names, from the root.  Links, permissions and devices are not modelled. *)
Definition path := list text.
Definition path_dec : forall p q : path, {p = q} + {p <> q} := list_eq_dec (list_eq_dec ascii_dec).
Arguments path_dec : simpl never.
Inductive node : Type := Dir | File (c : text).
Definition fs := list (path * node).
Definition look (s : fs) (p : path) : option node :=
  match find (fun e => if path_dec (fst e) p then true else false) s with Some e => Some (snd e) | None => None end.
Definition drop (s : fs) (p : path) : fs := filter (fun e => if path_dec (fst e) p then false else true) s.
Definition store (s : fs) (p : path) (n : node) : fs := (p, n) :: drop s p.

(** What a call does to the outside, one elementary step at a time: asking a server for a URL,
    creating a directory, creating or truncating a file, writing one more byte, removing a file or
    directory. *)
Inductive event : Type := Ask (url : text) | Mkdir (p : path) | Create (p : path) | Append (p : path) (c : ascii) | Remove (p : path).
Definition effect (s : fs) (e : event) : fs :=
  match e with
  | Ask _ => s
  | Mkdir p => store s p Dir
  | Create p => store s p (File [])
  | Append p c => store s p (File (match look s p with Some (File l) => l | _ => [] end ++ [c]))
  | Remove p => drop s p
  end.
Definition effects (s : fs) (l : list event) : fs := fold_left effect l s.

Definition io (A : Type) : Type := fs -> list event * res A.
Definition ret {A} (a : A) : io A := fun _ => ([], Ok a).
Definition raise {A} (e : exn) : io A := fun _ => ([], Err e).
Definition lift {A} (r : res A) : io A := fun _ => ([], r).
Definition tell (e : event) : io unit := fun _ => ([e], Ok tt).
Definition io_bind {A B} (m : io A) (f : A -> io B) : io B := fun s =>
  match m s with
  | (l, Ok a) => let (l', r) := f a (effects s l) in (l ++ l', r)
  | (l, Err e) => (l, Err e)
  end.
Notation "'step' x <- m ; k" := (io_bind m (fun x => k)) (at level 200, x name, m at level 100, k at level 200, right associativity).
Definition state : io fs := fun s => ([], Ok s).

(** os.path.exists; open(...).read(): a directory cannot be read.  Decoding is not modelled. *)
Definition exists_ (p : path) : io bool := fun s => ([], Ok (match look s p with Some _ => true | None => false end)).
Definition read_file (p : path) : io text := fun s => ([], match look s p with Some (File c) => Ok c | _ => Err IOError end).
(** os.makedirs: all the missing directories, from the top; the last one must not exist. *)
Fixpoint make_path (done rest : path) : io unit := fun s =>
  match rest with
  | [] => ([], Ok tt)
  | n :: r =>
      let q := done ++ [n] in
      match look s q with
      | None => (step _ <- tell (Mkdir q); make_path q r) s
      | Some Dir => make_path q r s
      | Some (File _) => ([], Err IOError)
      end
  end.
Definition makedirs (p : path) : io unit :=
  step e <- exists_ p; if e then raise IOError else make_path [] p.
(** open(p, 'wb'): the directory must exist, and no directory may bear that name. *)
Definition open_wb (p : path) : io unit := fun s =>
  match look s (removelast p), look s p with
  | Some Dir, Some Dir => ([], Err IOError)
  | Some Dir, _ => tell (Create p) s
  | _, _ => ([], Err IOError)
  end.
Definition write_all (p : path) (c : text) : io unit := fun _ => (map (Append p) c, Ok tt).
(** os.remove *)
Definition remove_file (p : path) : io unit := fun s =>
  match look s p with Some (File _) => tell (Remove p) s | _ => ([], Err IOError) end.

Definition within (p q : path) : bool := if path_dec (firstn (length p) q) p then true else false.
Definition below (s : fs) (p : path) : list path := filter (within p) (map fst s).
(** shutil.rmtree: the entries go in some order, [order], left to the file system. *)
Definition rmtree (order : list path -> list path) (p : path) : io unit := fun s =>
  match look s p with
  | Some Dir => (map Remove (order (below s p)), Ok tt)
  | _ => ([], Err IOError)
  end.

(** tarfile.open(...).extractall (Python before 3.12: no filter): every member in turn; missing
    parent directories are made; an existing file is overwritten.  A member is a path below the
    destination with the content of a file, or nothing for a directory.  The name "..", which tarfile
    does not reject, leads one level up. *)
Definition member : Type := path * option text.
Fixpoint up_from (done rest : path) : path :=
  match rest with
  | [] => done
  | n :: r => if list_eq_dec ascii_dec n (lit "..") then up_from (removelast done) r else up_from (done ++ [n]) r
  end.
Definition target (root p : path) : path := up_from root p.
Definition extract_member (root : path) (m : member) : io unit :=
  let p := target root (fst m) in
  step _ <- make_path [] (removelast p);
  match snd m with
  | Some c => step _ <- open_wb p; write_all p c
  | None => step e <- exists_ p; if e then ret tt else tell (Mkdir p)
  end.
Fixpoint extract_all (root : path) (ms : list member) : io unit :=
  match ms with
  | [] => ret tt
  | m :: r => step _ <- extract_member root m; extract_all root r
  end.

(** The properties of a data set in the catalogue, write_json_dataset_catalogue.py.  Missing keys
    that the code needs are not modelled. *)
Record entry := mkEntry {
  d_name : text; d_archive : text; d_url : text;
  d_train : path; d_test : path; d_validation : option path;
  d_subfolder : option text; d_license : option path; d_blog : text;
  d_models_archive : text; d_models_url : text }.
Record files := mkFiles { f_train : path; f_test : path; f_validation : option path; f_license : text; f_models : option (list path) }.

Section Fetch.
(** The servers: urlopen may fail, and so may reading the answer.  What an archive contains is a
    function of its bytes: the members unpacked, and whether unpacking then stops with an error. *)
Variable net : text -> res (res text).
Variable untar : text -> list member * res unit.
Variable order : list path -> list path.

(** datasets_fetcher.py 117-130 and 161-174: make the directory, download, unpack, remove the archive. *)
Definition download (home : path) (archive : text) (url : text) : io unit :=
  step _ <- makedirs home;
  step _ <- tell (Ask url);
  step answer <- lift (net url);
  let file := home ++ [archive] in
  step _ <- open_wb file;
  step bytes <- lift answer;
  step _ <- write_all file bytes;
  step content <- read_file file;
  step _ <- extract_all home (fst (untar content));
  step _ <- lift (snd (untar content));
  remove_file file.

Definition found_or (home : path) (get : io unit) : io unit :=
  step e <- exists_ home; if e then ret tt else get.

(** os.walk: the files below a directory, in no particular order. *)
Definition walk (p : path) : io (list path) := fun s =>
  ([], Ok (map fst (filter (fun e => within p (fst e) && negb (if path_dec p (fst e) then true else false) && match snd e with File _ => true | Dir => false end) s))).

(** datasets_fetcher.py 54-189.  [top] is data_home. *)
Definition fetch (d : entry) (fold : option Z) (top : path) (download_if_missing force with_models : bool) : io files :=
  let home := top ++ [d_name d] in
  let dataset_home := home ++ [lit "dataset"] in
  let models_home := home ++ [lit "models"] in
  step here <- exists_ home;
  if negb download_if_missing && negb here then raise IOError else
  match fold, d_subfolder d with
  | Some _, None => raise PlainException
  | _, _ =>
    let sub := match fold, d_subfolder d with Some k, Some f => [f ++ show_Z k] | _, _ => [] end in
    step _ <- (if force then
                 step here' <- exists_ home;
                 if here' then step _ <- rmtree order home; makedirs home else ret tt
               else ret tt);
    step _ <- found_or dataset_home (download dataset_home (d_archive d) (d_url d));
    step license <- match d_license d with Some f => read_file (dataset_home ++ f) | None => ret (lit "Please, check the terms of use before using the dataset. Here the link: " ++ d_blog d) end;
    step models <- (if with_models then
                      step _ <- found_or models_home (download models_home (d_models_archive d) (d_models_url d));
                      step l <- walk (models_home ++ sub); ret (Some l)
                    else ret None);
    ret (mkFiles (dataset_home ++ sub ++ d_train d) (dataset_home ++ sub ++ d_test d)
                 (match d_validation d with Some f => Some (dataset_home ++ sub ++ f) | None => None end) license models)
  end.

(** datasets_fetcher.py 192-256, dataset_container.py 8-21.  Reading a data set is any function of
    the content of its file; the catalogue is a list; [top] as given by __get_data_home__, 32-51,
    which creates it. *)
Record container (D : Type) := mkContainer { c_train : D; c_test : D; c_validation : option D; c_license : text; c_models : option (list path) }.
Arguments mkContainer {D}. Arguments c_train {D}. Arguments c_test {D}. Arguments c_validation {D}. Arguments c_license {D}. Arguments c_models {D}.
Definition load {D} (parse : text -> res D) (p : path) : io D :=
  step c <- read_file p; lift (parse c).
Definition load_dataset {D} (parse : text -> res D) (catalogue : list (text * entry)) (top : path) (nm : text) (fold : option Z)
    (download_if_missing force with_models : bool) : io (option (container D)) :=
  match find (fun e => if list_eq_dec ascii_dec (fst e) nm then true else false) catalogue with
  | None => ret None
  | Some (_, d) =>
    step here <- exists_ top;
    step _ <- (if here then ret tt else makedirs top);
    step f <- fetch d fold top download_if_missing force with_models;
    step tr <- load parse (f_train f);
    step te <- load parse (f_test f);
    step va <- match f_validation f with Some p => step v <- load parse p; ret (Some v) | None => ret None end;
    ret (Some (mkContainer tr te va (f_license f) (f_models f)))
  end.
End Fetch.
Arguments mkContainer {D}. Arguments c_train {D}. Arguments c_test {D}. Arguments c_validation {D}. Arguments c_license {D}. Arguments c_models {D}.
