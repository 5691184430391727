(** Vocabulary for the statements about downloads: what a directory must hold after unpacking an
    archive, what a file system looks like, what a crash leaves. *)
From Coq Require Import Ascii String List ZArith Bool Permutation.
From Verif Require Import Base M_Text M_Fetcher.
Import ListNotations.

Definition starts (p q : path) : Prop := exists r, q = p ++ r.
Definition before (p q : path) : Prop := exists r, r <> [] /\ q = p ++ r.

(** The file or directory [n] comes from unpacking the members [ms] and bears the name [q]. *)
Definition stored (ms : list member) (q : path) (n : node) : Prop :=
  match n with
  | File c => In (q, Some c) ms
  | Dir => In (q, None) ms \/ exists m, In m ms /\ before q (fst m)
  end.
(** The directory [root] holds exactly what the archive holds. *)
Definition holds (s : fs) (root : path) (ms : list member) : Prop :=
  look s root = Some Dir /\ forall q n, q <> [] -> (look s (root ++ q) = Some n <-> stored ms q n).
(** An archive without tricks: no name leads upwards, and a file has its path for itself. *)
Definition plain (p : path) : Prop := p <> [] /\ ~ In (lit "..") p.
Definition clean (ms : list member) : Prop :=
  Forall (fun m => plain (fst m)) ms /\
  forall i j p c m, nth_error ms i = Some (p, Some c) -> nth_error ms j = Some m -> starts p (fst m) -> i = j.

(** File systems: names are used once, and what exists lies in a directory that exists. *)
Definition sound (s : fs) : Prop :=
  NoDup (map fst s) /\ forall a x n, look s (a ++ [x]) = Some n -> a = [] \/ look s a = Some Dir.
(** No file stands in the way of the directory [p]. *)
Definition open_way (s : fs) (p : path) : Prop := forall a c, starts a p -> a <> [] -> look s a <> Some (File c).
(** Two file systems agree on a directory and all that lies in it. *)
Definition same_below (p : path) (s s' : fs) : Prop := forall q, starts p q -> look s' q = look s q.
(** Removing a tree removes all of it, each directory after its content. *)
Definition removes_children_first (order : list path -> list path) : Prop :=
  forall l, NoDup l -> Permutation (order l) l /\
  forall i j p q, nth_error (order l) i = Some p -> nth_error (order l) j = Some q -> before p q -> (j < i)%nat.

(** What a crash after [k] changes leaves; with [k] large enough, what the call leaves. *)
Definition left_after {A} (m : io A) (s : fs) (k : nat) : fs := effects s (firstn k (fst (m s))).
Definition after {A} (m : io A) (s : fs) : fs := effects s (fst (m s)).

(** An archive on a server: the answer to its URL unpacks without error into these members, and none
    of them is named like the archive. *)
Definition serves (net : text -> res (res text)) (untar : text -> list member * res unit) (url archive : text) (ms : list member) : Prop :=
  (exists bytes, net url = Ok (Ok bytes) /\ untar bytes = (ms, Ok tt)) /\ clean ms /\ ~ (exists m, In m ms /\ starts [archive] (fst m)) /\ archive <> lit "..".
Definition servers (net : text -> res (res text)) (untar : text -> list member * res unit) (d : entry) (ms mms : list member) : Prop :=
  serves net untar (d_url d) (d_archive d) ms /\ serves net untar (d_models_url d) (d_models_archive d) mms /\
  (forall f, d_license d = Some f -> exists c, In (f, Some c) ms).
(** Whatever the server answers, the archive contains no name that leads upwards. *)
Definition no_climbing (net : text -> res (res text)) (untar : text -> list member * res unit) (url : text) : Prop :=
  forall bytes, net url = Ok (Ok bytes) -> Forall (fun m => plain (fst m)) (fst (untar bytes)).

(** A call: its entry in the catalogue, the answers it gets and its arguments. *)
Record request := mkRequest { r_net : text -> res (res text); r_untar : text -> list member * res unit; r_order : list path -> list path;
  r_fold : option Z; r_if_missing : bool; r_force : bool; r_models : bool }.
Definition ask (d : entry) (top : path) (r : request) : io files :=
  fetch (r_net r) (r_untar r) (r_order r) d (r_fold r) top (r_if_missing r) (r_force r) (r_models r).
Definition fair (r : request) : Prop := (forall url, no_climbing (r_net r) (r_untar r) url) /\ removes_children_first (r_order r).
(** The states that calls, each of them finished or cut short, lead to. *)
Inductive reached (d : entry) (top : path) (ok : request -> Prop) (s : fs) : fs -> Prop :=
| reached_start : reached d top ok s s
| reached_call : forall s1 r k, reached d top ok s s1 -> ok r -> reached d top ok s (left_after (ask d top r) s1 k).

Definition data_dir (d : entry) (top : path) : path := top ++ [d_name d].
Definition dataset_dir (d : entry) (top : path) : path := top ++ [d_name d; lit "dataset"].
Definition models_dir (d : entry) (top : path) : path := top ++ [d_name d; lit "models"].
Definition fold_dir (d : entry) (fold : option Z) : path :=
  match fold, d_subfolder d with Some k, Some f => [f ++ show_Z k] | _, _ => [] end.
Definition fold_known (d : entry) (fold : option Z) : Prop := fold = None \/ d_subfolder d <> None.
(** The answer of a call: where the files of the fold are. *)
Definition located (d : entry) (top : path) (fold : option Z) (license : text) (models : option (list path)) : files :=
  mkFiles (dataset_dir d top ++ fold_dir d fold ++ d_train d) (dataset_dir d top ++ fold_dir d fold ++ d_test d)
          (match d_validation d with Some f => Some (dataset_dir d top ++ fold_dir d fold ++ f) | None => None end) license models.
(** The list of the files that lie in a directory, at any depth. *)
Definition lists_files (s : fs) (p : path) (l : list path) : Prop := forall q, In q l <-> before p q /\ exists c, look s q = Some (File c).
(** What the archive says about the data sets of a fold. *)
Definition archived {D} (parse : text -> res D) (d : entry) (fold : option Z) (ms : list member) (tr te : D) (va : option D) : Prop :=
  (exists c, In (fold_dir d fold ++ d_train d, Some c) ms /\ parse c = Ok tr) /\
  (exists c, In (fold_dir d fold ++ d_test d, Some c) ms /\ parse c = Ok te) /\
  match d_validation d, va with
  | Some f, Some v => exists c, In (fold_dir d fold ++ f, Some c) ms /\ parse c = Ok v
  | None, None => True
  | _, _ => False
  end.

(** The licence handed out: the content of its file, or a pointer to the page of the data set. *)
Definition licence (s : fs) (d : entry) (top : path) (t : text) : Prop :=
  match d_license d with
  | Some f => look s (dataset_dir d top ++ f) = Some (File t)
  | None => t = lit "Please, check the terms of use before using the dataset. Here the link: " ++ d_blog d
  end.
Definition request_load {D} (parse : text -> res D) (catalogue : list (text * entry)) (top : path) (nm : text) (r : request) : io (option (container D)) :=
  load_dataset (r_net r) (r_untar r) (r_order r) parse catalogue top nm (r_fold r) (r_if_missing r) (r_force r) (r_models r).
Definition in_catalogue (catalogue : list (text * entry)) (nm : text) (d : entry) : Prop :=
  find (fun e => if list_eq_dec ascii_dec (fst e) nm then true else false) catalogue = Some (nm, d).
