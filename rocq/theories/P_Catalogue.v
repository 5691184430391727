(** The catalogue of the data sets: C79. *)
From Coq Require Import Ascii String List ZArith Lia Bool.
From Verif Require Import Base M_Text M_Fetcher S_Fetcher M_Catalogue S_Catalogue L_Catalogue L_Catalogue2 L_Catalogue3.
Import ListNotations.
Local Open Scope Z_scope.

(** C79 *)
Theorem C79_round_trip : forall j, dictionary j -> exists j', loads (dumps 0%nat j) = Ok j' /\ dictionary j' /\ forall p, follow p j' = follow p j.
Proof. exact round_trip_lemma. Qed.
Print Assumptions C79_round_trip.
Theorem C79_same_file_iff_same_dictionary : forall j j', dictionary j -> dictionary j' -> (dumps 0%nat j = dumps 0%nat j' <-> forall p, follow p j = follow p j').
Proof. exact same_text_lemma. Qed.
Print Assumptions C79_same_file_iff_same_dictionary.

(** What json.load accepts, and what it makes of it. *)
Theorem C79_reader_grammar : forall t j, loads t = Ok j <-> document t j.
Proof. exact C79_reader_lemma. Qed.
Print Assumptions C79_reader_grammar.
(** What the fetcher takes from an entry. *)
Theorem C79_entry_of_dictionary : forall item e, to_entry item = Ok e <-> entry_of item e.
Proof. exact C79_entry_lemma. Qed.
Print Assumptions C79_entry_of_dictionary.

Definition odd_json : json :=
  JObj [(lit "b", JStr [ascii_of_nat 34; ascii_of_nat 92; ascii_of_nat 10; ascii_of_nat 233]); (lit "a", JObj [(lit "", JStr []); (lit "x", JObj [])])].
Example C79_example_text : dumps 0%nat odd_json =
  lit "{" ++ [newline] ++ lit "    ""a"": {" ++ [newline] ++ lit "        """": """"," ++ [newline] ++ lit "        ""x"": {}" ++ [newline] ++ lit "    }," ++ [newline] ++
  lit "    ""b"": ""\""\\\n\u00e9""" ++ [newline] ++ lit "}".
Proof. vm_compute. reflexivity. Qed.
Example C79_example_loads : loads (dumps 0%nat odd_json) = Ok (JObj [(lit "a", JObj [(lit "", JStr []); (lit "x", JObj [])]); (lit "b", JStr [ascii_of_nat 34; ascii_of_nat 92; ascii_of_nat 10; ascii_of_nat 233])]) /\
  follow [lit "a"; lit "x"] odd_json = AnObject /\ follow [lit "a"; lit "y"] odd_json = Nothing /\
  loads (lit "{""a"": ""b""} x") = Err ValueError /\ loads (lit "{""k"": ""1"", ""k"": ""2""}") = Ok (JObj [(lit "k", JStr (lit "2"))]).
Proof. vm_compute. repeat split. Qed.

Example C79_example_grammar : document (lit " {""k"":""a"" , ""j"" : {} , ""k"":""\n\u00e9\u00E9\/""} ")
    (JObj [(lit "k", JStr [ascii_of_nat 10; ascii_of_nat 233; ascii_of_nat 233; "/"%char]); (lit "j", JObj [])]) /\
  ~ document (lit "{""a"": ""b""} x") (JObj [(lit "a", JStr (lit "b"))]) /\ (forall j, ~ document (lit "{""a"": ""b"",}") j) /\ forall j, ~ document (lit "{'a': 'b'}") j.
Proof.
  split; [apply C79_reader_grammar; vm_compute; reflexivity|]. split; [intros H; apply C79_reader_grammar in H; vm_compute in H; discriminate H|].
  split; intros j H; apply C79_reader_grammar in H; vm_compute in H; discriminate H.
Qed.

(** The catalogue written by the script. *)
Definition ends_in (suffix t : text) : Prop := exists pre, t = pre ++ suffix.
Lemma ends_ok : forall suffix t, firstn (length t - length suffix) t ++ suffix = t -> ends_in suffix t.
Proof. intros suffix t H. eexists. symmetry. exact H. Qed.
Theorem C79_shipped_entries : exists catalogue, shipped = Ok catalogue /\
  map fst catalogue = [lit "istella-full"; lit "istella-sample"; lit "msn10k"; lit "msn30k"] /\
  Forall (fun p => fst p = d_name (snd p) /\ plain [d_name (snd p)] /\ plain (d_train (snd p)) /\ plain (d_test (snd p)) /\
    (forall f, d_validation (snd p) = Some f -> plain f) /\ (forall f, d_license (snd p) = Some f -> plain f) /\
    ends_in (lit "/" ++ d_archive (snd p)) (d_url (snd p)) /\ ends_in (lit "/" ++ d_models_archive (snd p)) (d_models_url (snd p)) /\
    d_validation (snd p) <> None) catalogue /\
  NoDup (map (fun p => d_url (snd p)) catalogue ++ map (fun p => d_models_url (snd p)) catalogue) /\
  map (fun p => d_subfolder (snd p)) catalogue = [None; None; Some (lit "Fold"); Some (lit "Fold")] /\
  map (fun p => d_license (snd p)) catalogue = [Some [lit "istella-letor-LA.txt"]; Some [lit "istella-letor-LA.txt"]; None; None] /\
  map (fun p => (d_train (snd p), d_test (snd p), d_validation (snd p))) catalogue
  = [([lit "full"; lit "train.txt"], [lit "full"; lit "test.txt"], Some [lit "None"]);
     ([lit "sample"; lit "train.txt"], [lit "sample"; lit "test.txt"], Some [lit "sample"; lit "vali.txt"]);
     ([lit "train.txt"], [lit "test.txt"], Some [lit "vali.txt"]); ([lit "train.txt"], [lit "test.txt"], Some [lit "vali.txt"])] /\
  map (fun p => (d_archive (snd p), d_models_archive (snd p))) catalogue
  = [(lit "istella-letor.tar.gz", lit "istella-letor-models.tar.gz"); (lit "istella-s-letor.tar.gz", lit "istella-s-letor-models.tar.gz");
     (lit "msn10k.tar.gz", lit "msn10k-models.tar.gz"); (lit "msn30k.tar.gz", lit "msn30k-models.tar.gz")].
Proof.
  eexists. split; [vm_compute; reflexivity|]. split; [vm_compute; reflexivity|]. split.
  { repeat (apply Forall_cons; [cbn [fst snd d_name d_train d_test d_validation d_license d_archive d_url d_models_archive d_models_url]|]); [..|apply Forall_nil];
    (split; [reflexivity|]; split; [split; [discriminate|intros H; repeat (destruct H as [H|H]; [discriminate H|]); exact H]|];
     split; [split; [discriminate|intros H; repeat (destruct H as [H|H]; [discriminate H|]); exact H]|];
     split; [split; [discriminate|intros H; repeat (destruct H as [H|H]; [discriminate H|]); exact H]|];
     split; [intros f E; first [discriminate E | injection E as <-; split; [discriminate|intros H; repeat (destruct H as [H|H]; [discriminate H|]); exact H]]|];
     split; [intros f E; first [discriminate E | injection E as <-; split; [discriminate|intros H; repeat (destruct H as [H|H]; [discriminate H|]); exact H]]|];
     split; [apply ends_ok; vm_compute; reflexivity|]; split; [apply ends_ok; vm_compute; reflexivity|]; discriminate). }
  split; [|repeat (split; [vm_compute; reflexivity|]); vm_compute; reflexivity].
  cbn [map snd d_url d_models_url app]. repeat (constructor; [intros H; repeat (destruct H as [H|H]; [discriminate H|]); exact H|]). constructor.
Qed.
Print Assumptions C79_shipped_entries.

(** istella-full names a validation file "None": the data set can be loaded only from an archive
    that contains a file of that name. *)
Theorem C79_missing_validation_file : forall (D : Type) (parse : text -> res D) catalogue nm d top s r ms mms f, in_catalogue catalogue nm d ->
  sound s -> open_way s (data_dir d top) -> look s top <> None -> servers (r_net r) (r_untar r) d ms mms -> removes_children_first (r_order r) -> fold_known d (r_fold r) ->
  (r_if_missing r = true \/ look s (data_dir d top) <> None) -> (r_force r = true \/ look s (dataset_dir d top) = None) ->
  d_validation d = Some f -> f <> [] -> (forall c, ~ In (fold_dir d (r_fold r) ++ f, Some c) ms) ->
  exists e, snd (request_load parse catalogue top nm r s) = Err e.
Proof. exact missing_validation. Qed.
Print Assumptions C79_missing_validation_file.
Theorem C79_istella_full_refuted : exists catalogue d, shipped = Ok catalogue /\ in_catalogue catalogue (lit "istella-full") d /\
  forall (D : Type) (parse : text -> res D) top s r ms mms,
  sound s -> open_way s (data_dir d top) -> look s top <> None -> servers (r_net r) (r_untar r) d ms mms -> removes_children_first (r_order r) -> r_fold r = None ->
  r_if_missing r = true -> r_force r = true -> (forall c, ~ In ([lit "None"], Some c) ms) ->
  exists e, snd (request_load parse catalogue top (lit "istella-full") r s) = Err e.
Proof.
  eexists. eexists. split; [vm_compute; reflexivity|]. split; [vm_compute; reflexivity|].
  intros D parse top s r ms mms S W N V O F M Fo No. eapply missing_validation; [vm_compute; reflexivity|exact S|exact W|exact N|exact V|exact O|left; exact F|left; exact M|left; exact Fo|reflexivity|discriminate|].
  rewrite F. exact No.
Qed.
Print Assumptions C79_istella_full_refuted.
(** An archive with the two files it should have. *)
Definition full_ms : list member := [([lit "full"; lit "train.txt"], Some (lit "tr")); ([lit "full"; lit "test.txt"], Some (lit "te")); ([lit "istella-letor-LA.txt"], Some (lit "free"))].
Definition full_call (ms : list member) : request := mkRequest (fun _ => Ok (Ok (lit "tar"))) (fun _ => (ms, Ok tt)) (fun l => rev l) None true true false.
Example C79_example_full :
  match shipped with
  | Ok cat => (snd (request_load (fun t => Ok t) cat [lit "h"] (lit "istella-full") (full_call full_ms) [([lit "h"], Dir)]),
               match snd (request_load (fun t => Ok t) cat [lit "h"] (lit "istella-full") (full_call (([lit "None"], Some (lit "va")) :: full_ms)) [([lit "h"], Dir)]) with Ok (Some c) => c_validation c | _ => None end)
  | Err _ => (Ok None, None)
  end = (Err IOError, Some (lit "va")).
Proof. vm_compute. reflexivity. Qed.
