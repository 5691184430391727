(** C86: the text of the drawings of trees (visualization/topological.py, export_graphviz). *)
From Coq Require Import Ascii String List ZArith Bool Lia QArith.
From Verif Require Import Base Num M_Text M_Float M_Ensemble S_Ensemble S_Loaders M_Graphviz S_Graphviz L_Graphviz3 M_Dot S_Dot L_Dot L_Dot2 L_Dot3 L_Dot4 P_Graphviz.
Import ListNotations.
Local Open Scope Z_scope.

(** Texts of numbers have only characters of numbers; colours have components from 0 to 255. *)
Definition numbers_ok {N : num} (shown : Z -> N -> text) (percent : Z -> Z -> text) (paint : fill (N:=N) -> Z * Z * Z * Z) : Prop :=
  (forall p v, Forall number_char (shown p v)) /\ (forall c h, Forall number_char (percent c h)) /\
  (forall f, let '(r, g, b, a) := paint f in 0 <= r <= 255 /\ 0 <= g <= 255 /\ 0 <= b <= 255 /\ 0 <= a <= 255).
(** A reader of DOT finds the statements of the drawing, one after the other, and nothing else but
    defaults.  Names without quotes, backslashes, ampersands, and without < and > in HTML labels. *)
Theorem C86_text_is_the_drawing : forall (N : num) shown percent paint (e : ensemble N) tid o y items, numbers_ok shown percent paint ->
  export_graphviz e tid o = Ok items ->
  (forall i b name v, In (i, b) (boxes items) -> b_body b = Test (inl name) v -> Forall (harmless (y_special y)) name) ->
  exists t ds l, export_string shown percent paint e tid o y = Ok t /\ read_dot t = Some (Word (lit "Tree"), ds ++ l) /\
    Forall decoration ds /\ Forall2 (depicts shown percent paint (y_special y) (o_precision o)) items l.
Proof.
  intros N shown percent paint e tid o y items (S & P & C) H NM.
  assert (SF : Forall (item_safe (y_special y)) items).
  { apply Forall_forall. intros [i b|i f|p c h|k ids] X; cbn [item_safe]; try exact I. unfold box_safe. destruct (b_body b) as [[name|n] v|v] eqn:B; try exact I.
    apply (NM i b name v); [|exact B]. unfold boxes. apply in_flat_map. exists (Box i b). split; [exact X|left; reflexivity]. }
  destruct (file_read shown percent paint S P C y o items SF) as (g & R & ds & l & -> & D & F).
  unfold export_string. rewrite (written_ok shown percent paint e tid o y items H). cbn [snd fst bind]. eexists _, ds, l. split; [reflexivity|]. auto.
Qed.
Print Assumptions C86_text_is_the_drawing.
(** With C62: the file shows the tree. *)
Theorem C86_text_shows_the_tree : forall (N : num) shown percent paint (e : ensemble N) ts ws, numbers_ok shown percent paint -> laid_out e ts ws -> forall tid k t, names_tree ts tid k -> nth_error ts k = Some t ->
  forall o col y, options_fit o -> leaf_column ts k o col -> names_fit e o t -> (o_np_mapping o = true \/ fully_drawn o t) -> names_harmless (y_special y) o ->
  exists text ds l items b, export_string shown percent paint e tid o y = Ok text /\ read_dot text = Some (Word (lit "Tree"), ds ++ l) /\
    Forall decoration ds /\ Forall2 (depicts shown percent paint (y_special y) (o_precision o)) items l /\ bounds_fit o col t b /\
    boxes items = map (fun s => (mark s, picture o col b s)) (visible (o_max_depth o) 0 t) /\
    dots items = map mark (cut (o_max_depth o) 0 t) /\ arrows items = links (o_max_depth o) 0 t /\
    if o_parallel o then ranks_fit (o_max_depth o) t (ranks items) else ranks items = [].
Proof.
  intros N shown percent paint e ts ws (S & P & C) Hl tid k t Hi Ht o col y Ho Hc Hn Hd NM.
  destruct (@export_ok N e ts ws Hl tid k t Hi Ht o col Ho Hc Hn Hd) as (items & b & E & B1 & B2 & B3).
  destruct (file_read shown percent paint S P C y o items (items_safe o col b (y_special y) items _ NM B2)) as (g & R & ds & l & -> & D & F).
  unfold export_string. rewrite (written_ok shown percent paint e tid o y items E). cbn [snd fst bind]. eexists _, ds, l, items, b. split; [reflexivity|]. exact (conj R (conj D (conj F (conj B1 (conj B2 B3))))).
Qed.
Print Assumptions C86_text_shows_the_tree.
(** A file gets the text that would be returned, or the same exception is raised. *)
Theorem C86_file_or_string : forall (N : num) shown percent paint (e : ensemble N) tid o y before,
  match export_string shown percent paint e tid o y with
  | Ok t => export_file shown percent paint before e tid o y = (Some t, Ok tt)
  | Err x => exists t, export_file shown percent paint before e tid o y = (Some t, Err x)
  end.
Proof.
  intros N shown percent paint e tid o y before. unfold export_string, export_file. destruct (written shown percent paint e tid o y) as [t [[]|x]]; cbn [fst snd bind]; [reflexivity|exists t; reflexivity].
Qed.
Print Assumptions C86_file_or_string.
(** It raises what C62 says, and then the file is left behind without being a graph: empty when the
    arguments were refused. *)
Theorem C86_failed_call : forall (N : num) shown percent paint (e : ensemble N) tid o y before x, export_graphviz e tid o = Err x ->
  export_string shown percent paint e tid o y = Err x /\
  exists t, export_file shown percent paint before e tid o y = (Some t, Err x) /\ read_dot t = None /\ (prepare e tid o = Err x -> t = []).
Proof.
  intros N shown percent paint e tid o y before x H. destruct (written_err shown percent paint e tid o y x H) as (t & W & U).
  unfold export_string, export_file. rewrite W. split; [reflexivity|]. exists t. split; [reflexivity|]. split.
  - destruct U as [[-> _]|U]; [reflexivity|apply unfinished_unread, U].
  - intros P. unfold written in W. rewrite P in W. cbn [wbind wlift fst snd] in W. congruence.
Qed.
Print Assumptions C86_failed_call.

Definition plain_style : style := mkStyle false false.
Definition toy_shown (p : Z) (v : QN) : text := show_fixed v.
Definition toy_percent (c h : Z) : text := show_Z (100 * c / h) ++ lit ".00".
Definition toy_paint (f : fill (N:=QN)) : Z * Z * Z * Z := match f with ByCount 0 _ _ => (59, 76, 192, 255) | _ => (180, 4, 38, 255) end.
Definition shows (names : list text) (m : option Z) (lab : labelling) (ids mapping : bool) : options :=
  mkOptions m (Some [[0; 5]; [0; 2]; [0; 5]; [0; 2]; [0; 2]]) lab true (Some names) false true ids true 3 mapping.
Definition with_names (names : list text) : options := shows names None LabelAll true false.
Definition lines (l : list string) : text := concat (map (fun s => lit s ++ [newline]) l).
Example C86_example : export_string toy_shown toy_percent toy_paint toy 1 (shows [lit "bm25"; lit "age"] (Some 1) LabelAll true true) plain_style = Ok (lines [
  "digraph Tree {"; "node [shape=box, style=""filled"", color=""black""] ;"; "graph [ranksep=equally, splines=polyline] ;";
  "1 [label=""node #1\ncounts = 5 (100.00%)\nbm25 <= 0.500000"", fillcolor=""#b40426bf""] ;";
  "2 [label=""node #2\ncounts = 3 (60.00%)\noutput = 1.000000"", fillcolor=""#b40426bf""] ;"; "1 -> 2 [labeldistance=2.5, labelangle=45, headlabel=""True""] ;";
  "3 [label=""node #3\ncounts = 2 (40.00%)\nage <= 2.500000"", fillcolor=""#b40426bf""] ;"; "1 -> 3 [labeldistance=2.5, labelangle=-45, headlabel=""False""] ;";
  "4 [label=""(...)"", fillcolor=""#C0C0C0""] ;"; "3 -> 4 ;"; "5 [label=""(...)"", fillcolor=""#C0C0C0""] ;"; "3 -> 5 ;";
  "{rank=same ; 1} ;"; "{rank=same ; 3} ;"; "{rank=same ; 2; 4; 5} ;"]%string ++ lit "}").
Proof. vm_compute. reflexivity. Qed.
Example C86_example_html : export_string toy_shown toy_percent toy_paint toy 1 (mkOptions (Some 2) (Some [[0; 5]]) LabelLeaves true None false false true true 3 false) (mkStyle true true) = Ok (lines [
  "digraph Tree {"; "node [shape=box, style=""filled, rounded"", color=""black"", fontname=helvetica] ;"; "edge [fontname=helvetica] ;";
  "1 [label=<node &#35;1<br/>f<FONT POINT-SIZE=""10""><SUB>0</SUB></FONT>  &le; 0.500000>, fillcolor=""#ffffffff""] ;";
  "2 [label=<node &#35;2<br/>counts = 0 (0.00&#37;)<br/>output = 1.000000>, fillcolor=""#3b4cc0bf""] ;"; "1 -> 2 [labeldistance=2.5, labelangle=45, headlabel=""True""] ;";
  "3 [label=<node &#35;3<br/>f<FONT POINT-SIZE=""10""><SUB>1</SUB></FONT>  &le; 2.500000>, fillcolor=""#ffffffff""] ;"; "1 -> 3 [labeldistance=2.5, labelangle=-45, headlabel=""False""] ;";
  "4 [label=<node &#35;4<br/>counts = 0 (0.00&#37;)<br/>output = 2.000000>, fillcolor=""#3b4cc0bf""] ;"; "3 -> 4 ;";
  "5 [label=<node &#35;5<br/>counts = 1 (100.00&#37;)<br/>output = 3.000000>, fillcolor=""#b40426bf""] ;"; "3 -> 5 ;"]%string ++ lit "}").
Proof. vm_compute. reflexivity. Qed.
(** A name with a quote changes the graph: here a node 9 appears that the tree does not have. *)
Definition node_names (g : option (word * list stmt)) : list text :=
  match g with Some (_, l) => flat_map (fun s => match s with SNode (Word n) _ => [n] | _ => [] end) l | None => [] end.
Theorem C86_quoted_name_refuted : exists names t, export_string toy_shown toy_percent toy_paint toy 1 (with_names names) plain_style = Ok t /\
  node_names (read_dot t) = [lit "1"; lit "9"; lit "2"; lit "3"; lit "4"; lit "5"].
Proof.
  exists [lit "bm25""] ; 9 [label=""x"; lit "age"].
  destruct (export_string toy_shown toy_percent toy_paint toy 1 (with_names [lit "bm25""] ; 9 [label=""x"; lit "age"]) plain_style) as [t|x] eqn:E; [|vm_compute in E; discriminate E].
  exists t. split; [reflexivity|]. assert (F : match export_string toy_shown toy_percent toy_paint toy 1 (with_names [lit "bm25""] ; 9 [label=""x"; lit "age"]) plain_style with Ok t => node_names (read_dot t) | Err _ => [] end = [lit "1"; lit "9"; lit "2"; lit "3"; lit "4"; lit "5"]) by (vm_compute; reflexivity).
  rewrite E in F. exact F.
Qed.
Print Assumptions C86_quoted_name_refuted.
(** With special_characters a name with < makes the text unreadable. *)
Theorem C86_html_name_refuted : exists names t, export_string toy_shown toy_percent toy_paint toy 1 (with_names names) (mkStyle true false) = Ok t /\ read_dot t = None.
Proof.
  exists [lit "a<b"; lit "age"].
  destruct (export_string toy_shown toy_percent toy_paint toy 1 (with_names [lit "a<b"; lit "age"]) (mkStyle true false)) as [t|x] eqn:E; [|vm_compute in E; discriminate E].
  exists t. split; [reflexivity|]. assert (F : match export_string toy_shown toy_percent toy_paint toy 1 (with_names [lit "a<b"; lit "age"]) (mkStyle true false) with Ok t => read_dot t | Err _ => Some (Word [], []) end = None) by (vm_compute; reflexivity).
  rewrite E in F. exact F.
Qed.
Print Assumptions C86_html_name_refuted.
(** A refused call does not leave an existing file alone. *)
Theorem C86_refused_keeps_file_refuted : exists o old, old <> [] /\ export_file toy_shown toy_percent toy_paint (Some old) toy 1 o plain_style = (Some [], Err ValueError).
Proof. exists (with_names [lit "a"; lit "b"; lit "c"]), (lit "my notes"). split; [discriminate|]. vm_compute. reflexivity. Qed.
Print Assumptions C86_refused_keeps_file_refuted.
(** A call that fails in the middle. *)
Example C86_example_cut : exists t, export_file toy_shown toy_percent toy_paint None toy 1 (shows [lit "bm25"; lit "age"] (Some 0) LabelAll false false) plain_style = (Some t, Err TypeError) /\
  t = lines ["digraph Tree {"; "node [shape=box, style=""filled"", color=""black""] ;"; "graph [ranksep=equally, splines=polyline] ;"; "1 [label=""counts = 5 (100.00%)\nbm25 <= 0.500000"", fillcolor=""#b40426bf""] ;"]%string ++ lit "2 [label=""(...)"", fillcolor=""#C0C0C0""".
Proof. eexists. split; [vm_compute; reflexivity|vm_compute; reflexivity]. Qed.
Example C86_numbers : (forall c h, Forall number_char (toy_percent c h)) /\ Forall number_char (toy_shown 3 ((-5) # 2)%Q) /\ names_harmless false (with_names [lit "bm25"; lit "a < b"]) /\ ~ names_harmless true (with_names [lit "bm25"; lit "a < b"]).
Proof.
  split; [|split; [|split]].
  - intros c h. unfold toy_percent. apply Forall_app. split; [|repeat (apply Forall_cons; [cbn; tauto|]); apply Forall_nil].
    destruct (show_shape (100 * c / h)) as (d & ds & D & DS & [->| ->]); repeat (apply Forall_cons; [cbn in *; tauto|]); (eapply Forall_impl; [|exact DS]); intros a A; cbn in *; tauto.
  - apply Forall_forall. intros c C. vm_compute in C. cbn. intuition subst; tauto.
  - apply Forall_cons; [|apply Forall_cons; [|apply Forall_nil]]; apply Forall_forall; intros c C; vm_compute in C; repeat (destruct C as [<-|C]; [vm_compute; repeat split; discriminate|]); contradiction.
  - intros H. unfold names_harmless in H. cbn [o_names with_names shows] in H. apply Forall_inv_tail in H. apply Forall_inv in H. rewrite Forall_forall in H. destruct (H "<"%char) as (_ & _ & X & _); [cbn; tauto|]. apply X. reflexivity.
Qed.
