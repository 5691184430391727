(** Property C101: data sets by path and by stream. *)
From Coq Require Import Ascii String List ZArith QArith Lia Bool.
From Verif Require Import Base M_Text M_Svmlight S_Svmlight M_Dataset S_Dataset M_Files S_Files S_Nul L_Files T_Svmlight.
Import ListNotations.
Local Open Scope Z_scope.

Theorem C101_compressed_by_name : forall gz bz p,
  (named (lit ".gz") p -> codec_of gz bz p = gz) /\ (named (lit ".bz2") p -> codec_of gz bz p = bz) /\
  (~ named (lit ".gz") p -> ~ named (lit ".bz2") p -> codec_of gz bz p = plain).
Proof. intros gz bz p. exact (conj (@codec_gz gz bz p) (conj (@codec_bz gz bz p) (@codec_plain gz bz p))). Qed.
Print Assumptions C101_compressed_by_name.
(** The extension, for any suffix. *)
Theorem C101_extension : forall s p, ~ In "/"%char s -> ~ In "."%char s ->
  (splitext p = "."%char :: s <-> named ("."%char :: s) p).
Proof. exact (@splitext_named). Qed.
Print Assumptions C101_extension.
(** Writing a data set to a path and loading the path. *)
Theorem C101_dump_then_load : forall gz bz (V : Type) (F : fmt V) (num : V -> numtok) nf (X : list (list V)) y ids d junk p w,
  faithful gz -> faithful bz ->
  built nf X y ids d -> (2 <= length X)%nat -> (0 < nf)%nat -> Forall (fun r => length r = nf) X ->
  length junk = length ids -> Forall (label_prints F num) y -> Forall (Forall (cell_prints F num)) X ->
  Z.of_nat (length X * S nf) < 2 ^ 31 ->
  exists w', dataset_dump gz bz F w true (Path p) junk d = (w', Ok tt) /\ same_but_file p w w' /\
    dataset_load gz bz F w' true (Path p) = (w', Ok d).
Proof. exact (@C101_dump_load_lemma). Qed.
Print Assumptions C101_dump_then_load.
(** A path can be loaded any number of times. *)
Theorem C101_paths_again : forall gz bz (V : Type) (F : fmt V) w p x,
  load_source gz bz F w (Path p) = (w, Ok x) -> forall n,
  load_sources gz bz F w (repeat (Path p) (S n)) = (w, Ok (repeat x (S n))).
Proof. exact (@paths_twice). Qed.
Print Assumptions C101_paths_again.
(** A stream loads like a file with the text still unread, and nothing else changes. *)
Theorem C101_stream : forall gz bz (V : Type) (F : fmt V) w h,
  snd (load_source gz bz F w (Stream h)) = load_svmlight_file F (unread w h) /\
  same_but_stream h w (fst (load_source gz bz F w (Stream h))).
Proof. exact (@stream_load). Qed.
Print Assumptions C101_stream.
Theorem C101_stream_exhausted : forall gz bz (V : Type) (F : fmt V) w h x, ~ In nul (unread w h) ->
  snd (load_source gz bz F w (Stream h)) = Ok x ->
  unread (fst (load_source gz bz F w (Stream h))) h = [] /\
  snd (load_source gz bz F (fst (load_source gz bz F w (Stream h))) (Stream h)) = Err ZeroDivisionError /\
  snd (load_sources gz bz F w [Stream h; Stream h]) = Err ZeroDivisionError.
Proof. exact (@stream_exhausted). Qed.
Print Assumptions C101_stream_exhausted.
(** A line that begins with NUL separates two data sets of one stream. *)
Theorem C101_stream_parts : forall gz bz (V : Type) (F : fmt V) w h a c r x,
  unread w h = a ++ nul :: c ++ newline :: r -> whole_lines a -> ~ In nul a -> inside c ->
  load_svmlight_file F a = Ok x ->
  snd (load_source gz bz F w (Stream h)) = Ok x /\ unread (fst (load_source gz bz F w (Stream h))) h = r.
Proof. exact (@stream_parts). Qed.
Print Assumptions C101_stream_parts.
(** False: "a path that ends in .gz is uncompressed". *)
Theorem C101_ends_in_gz_refuted : exists p, (exists d, p = d ++ lit ".gz") /\ forall gz bz, codec_of gz bz p = plain.
Proof. exists (lit "data/.gz"). split; [exists (lit "data/"); reflexivity|]. intros. vm_compute. reflexivity. Qed.
Print Assumptions C101_ends_in_gz_refuted.
(** Dots in directories and repeated dots do not count; the last extension does. *)
Example C101_names : map (fun p => splitext (lit p)) ["a.gz"; "d.gz/a"; "d/..gz"; "d/.a.gz"; "a.gz.txt"; "a.bz2"; "a.GZ"]%string =
  map lit [".gz"; ""; ""; ".gz"; ".txt"; ".bz2"; ".GZ"]%string.
Proof. vm_compute. reflexivity. Qed.

Definition turned : codec := mkCodec (@rev ascii) (fun t => Some (rev t)).
Lemma turned_faithful : faithful turned.
Proof. intros t. cbn. rewrite rev_involutive. reflexivity. Qed.
Definition one : text := lit "2 qid:7 1:1" ++ newline :: lit "1 qid:7 1:5" ++ [newline].
Definition two : text := lit "3 qid:9 2:4" ++ [newline].
Definition world0 : world := mkWorld (fun p => if text_eqb p (lit "d/a.gz") then Some (rev one) else None)
  (fun h => if Nat.eqb h 4 then one ++ nul :: lit "x" ++ newline :: two else []) (fun _ => []).
(** One compressed file, and one stream with two data sets. *)
Example C101_example :
  snd (load_source turned plain QF world0 (Path (lit "d/a.gz"))) = Ok (1%nat, [[1]; [5]]%Q, [2; 1]%Q, [7; 7]) /\
  snd (load_source turned plain QF world0 (Path (lit "d/b"))) = Err IOError /\
  snd (load_sources turned plain QF world0 [Stream 4; Stream 4]) =
    Ok [(1%nat, [[1]; [5]]%Q, [2; 1]%Q, [7; 7]); (2%nat, [[0; 4]]%Q, [3]%Q, [9])] /\
  snd (load_sources turned plain QF world0 [Stream 4; Stream 4; Stream 4]) = Err ZeroDivisionError.
Proof. repeat split; vm_compute; reflexivity. Qed.
(** The first data set is written to a compressed file and read back. *)
Example C101_dump_example :
  match dataset_load turned plain QF world0 true (Path (lit "d/a.gz")) with
  | (w, Ok d) => match dataset_dump turned plain QF w true (Path (lit "c.gz")) [0; 0] d with
                 | (w', Ok _) => files w' (lit "c.gz") <> files w (lit "c.gz") /\
                     snd (dataset_load turned plain QF w' true (Path (lit "c.gz"))) = Ok d
                 | _ => False end
  | _ => False end.
Proof. vm_compute. split; [discriminate|reflexivity]. Qed.
