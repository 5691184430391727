(** Property C87 (XML model files as characters). *)
From Coq Require Import Ascii String List ZArith QArith Lia Bool.
From Verif Require Import Base Lists Num M_Text S_Svmlight M_Float M_Dataset M_Ensemble S_Ensemble M_Loaders S_Loaders L_Loaders L_QuickRank L_Jforests L_Fixed
  T_Loaders M_Xml S_Xml L_Xml3 L_Xml4 L_Xml5 P_Loaders.
Import ListNotations.
Local Open Scope Z_scope.

(** C87 *)
Theorem C87_reader_grammar : forall t x, read_xml t = Some x <-> xml_document t x.
Proof. exact reader_grammar. Qed.
Print Assumptions C87_reader_grammar.

Theorem C87_one_document : forall t x y, xml_document t x -> xml_document t y -> x = y.
Proof. exact document_unique. Qed.
Print Assumptions C87_one_document.

(** Loading a file: nothing but documents, and the trees of the document. *)
Theorem C87_malformed_file : forall (N : num) (rd : text -> option N) t,
  (forall x, ~ xml_document t x) <-> quick_load_text rd t = Malformed.
Proof. exact (@quick_malformed). Qed.
Print Assumptions C87_malformed_file.
Theorem C87_malformed_jforests : forall (N : num) (rd : text -> option N) t,
  (forall x, ~ xml_document t x) <-> jf_load_text rd t = Malformed.
Proof. exact (@jf_malformed). Qed.
Print Assumptions C87_malformed_jforests.
Theorem C87_quickrank_text : forall (N : num) (rd : text -> option N) wts t x, xml_document t x -> quick_doc wts x ->
  Forall (fun p => readable rd (fst p) /\ Forall (readable rd) (values (snd p)) /\ fits16 (snd p)) wts ->
  exists e, quick_load_text rd t = Parsed (Ok e) /\
    laid_out e (preorder_all 0 (map (fun p => convert (cell_of rd) (cell_of rd) (snd p)) wts))
               (map (fun p => cell_of rd (fst p)) wts).
Proof. exact (@quickrank_text). Qed.
Print Assumptions C87_quickrank_text.
Theorem C87_jforests_text : forall (N : num) (rd : text -> option N) (ps : list (text * arrays * tree Z text)) t x,
  xml_document t x -> jf_doc (map fst ps) x ->
  Forall (fun p => readable rd (fst (fst p)) /\ arr_tree (snd (fst p)) (snd p) /\ fits16 (snd p) /\
            Forall (readable rd) (a_threshold (snd (fst p))) /\ Forall (readable rd) (a_leaf (snd (fst p)))) ps ->
  exists e, jf_load_text rd t = Parsed (Ok e) /\
    laid_out e (map (convert (cell_of rd) (cell_of rd)) (placed 0 (map (fun p => (snd (fst p), snd p)) ps)))
               (map (fun p => cell_of rd (fst (fst p))) ps).
Proof. exact (@jforests_text). Qed.
Print Assumptions C87_jforests_text.

(** Writing: a document with the same elements, attributes and texts, up to the blanks before first children. *)
Theorem C87_written_reads_back : forall x, writable x -> exists y, xml_document (write_xml x) y /\ respaced x y.
Proof. exact written_reads_back. Qed.
Print Assumptions C87_written_reads_back.

(** Saving then loading. *)
Theorem C87_save_load : forall (N : num) (repr : N -> text), (forall v, Forall data_char (repr v)) ->
  forall (rd : text -> option N) (m : model N) ts ws, encodes (m_ens m) ts ws -> ts <> [] ->
  (forall t v, In t ts -> In v (values t) -> word (repr v) /\ readable rd (repr v) /\ cell_of rd (repr v) = v) ->
  Forall (fun v => word (repr v) /\ readable rd (repr v) /\ cell_of rd (repr v) = v) ws -> Forall fits16 ts ->
  exists t e', quick_save_text repr m = Ok t /\ quick_load_text rd t = Parsed (Ok e') /\ laid_out e' (preorder_all 0 ts) ws.
Proof. exact (@save_load_text). Qed.
Print Assumptions C87_save_load.
Theorem C87_float32 : forall (m : model F32N) (ts : list (tree Z F32N)) (ws : list F32N),
  encodes (m_ens m) ts ws -> ts <> [] ->
  (forall t v, In t ts -> In v (values t) -> Z.abs v < f32_top) ->
  Forall (fun v => Z.abs v < f32_top) ws -> Forall fits16 ts ->
  exists t e', quick_save_text show32 m = Ok t /\ quick_load_text rd32 t = Parsed (Ok e') /\ laid_out e' (preorder_all 0 ts) ws.
Proof. exact save_load_float32. Qed.
Print Assumptions C87_float32.

(** A file that stops before the end of its root is not read; a save that stops early leaves a file that is not read, unless
    only the last newline is missing. *)
Theorem C87_cut_file : forall t u front root back x p s v, lines_read t u -> document_parts u front root back x ->
  t = p ++ s -> lines_read p v -> (length v < length (front ++ root))%nat -> read_xml p = None.
Proof. exact cut_file. Qed.
Print Assumptions C87_cut_file.
Theorem C87_interrupted_save : forall (m : model F32N) t p s, quick_save_text show32 m = Ok t -> t = p ++ s ->
  quick_load_text rd32 p = Malformed \/ ((s = [] \/ s = [newline]) /\ quick_load_text rd32 p = quick_load_text rd32 t).
Proof. exact interrupted_float32. Qed.
Print Assumptions C87_interrupted_save.

(** The file saved for a model with one split. *)
Definition stump : model QN :=
  mkModel (N:=QN) (mkEns (N:=QN) 1 3 [0] [1%Q] [1; -1; -1] [2; -1; -1] [1 # 2; 4; 8]%Q [0; -1; -1]) 1%Q None [].
Example C87_saved_text : quick_save_text (N:=QN) showQ stump = Ok (lit
"<ranker>
	<info>
		<type>MART</type>
		<trees>1</trees>
		<leaves>2</leaves>
		<shrinkage>1</shrinkage>
		<leafsupport>0</leafsupport>
		<discretization>0</discretization>
		<estop>0</estop>
	</info>
	<ensemble>
		<tree id=""1"" weight=""1"">
			<split>
				<feature>1</feature>
				<threshold>0.500000</threshold>
				<split pos=""left"">
					<output>4</output>
				</split>
				<split pos=""right"">
					<output>8</output>
				</split>
			</split>
		</tree>
	</ensemble>
</ranker>
").
Proof. vm_compute. reflexivity. Qed.
Definition opened_seen (o : opened (res (ensemble QN))) := match o with Malformed => None | Parsed r => Some (seen r) end.
Example C87_saved_loads : opened_seen (match quick_save_text (N:=QN) showQ stump with Ok t => quick_load_text rdQ t | Err _ => Malformed end)
  = Some (Ok ([0], [0; -1; -1], [1; -1; -1], [2; -1; -1], [1 # 2; 4; 8]%Q, [1]%Q)).
Proof. vm_compute. reflexivity. Qed.
(** The files shipped with the tests: roots, features, children, and the nine digits of values and weights. *)
Definition shown (o : opened (res (ensemble F32N))) : option (list Z * list Z * list Z * list Z * list text * list text) :=
  match o with
  | Parsed (Ok e) => Some (e_root e, e_feature e, e_left e, e_right e, map show32 (e_value e), map show32 (e_weight e))
  | _ => None
  end.
Definition quickrank_file : text := lit
"<ranker>
	<info>
		<type>MART</type>
		<trees>2</trees>
		<leaves>3</leaves>
		<shrinkage>0.10000000149011612</shrinkage>
		<leafsupport>1</leafsupport>
		<discretization>0</discretization>
		<estop>100</estop>
	</info>
	<ensemble>
		<tree id=""1"" weight=""0.10000000149011612"">
			<split>
				<feature>108</feature>
				<threshold>14.895151138305664</threshold>
				<split pos=""left"">
					<feature>115</feature>
					<threshold>-8.0245580673217773</threshold>
					<split pos=""left"">
						<output>0.3412887828162291</output>
					</split>
					<split pos=""right"">
						<output>0.66845277963831218</output>
					</split>
				</split>
				<split pos=""right"">
					<output>0.96317280453257792</output>
				</split>
			</split>
		</tree>
		<tree id=""2"" weight=""0.10000000149011612"">
			<split>
				<feature>8</feature>
				<threshold>0.66666698455810547</threshold>
				<split pos=""left"">
					<output>0.37133907932286642</output>
				</split>
				<split pos=""right"">
					<feature>106</feature>
					<threshold>17.135160446166992</threshold>
					<split pos=""left"">
						<output>0.54762687170967062</output>
					</split>
					<split pos=""right"">
						<output>0.98651670670179537</output>
					</split>
				</split>
			</split>
		</tree>
	</ensemble>
</ranker>
".
Example C87_quickrank_file : shown (quick_load_text rd32 quickrank_file) =
  Some ([0; 5], [107; 114; -1; -1; -1; 7; -1; 105; -1; -1], [1; 2; -1; -1; -1; 6; -1; 8; -1; -1], [4; 3; -1; -1; -1; 7; -1; 9; -1; -1],
        map lit ["14.8951511"; "-8.02455807"; "0.341288775"; "0.668452799"; "0.963172793"; "0.666666985"; "0.371339083"; "17.1351604"; "0.547626853"; "0.986516714"]%string,
        map lit ["0.100000001"; "0.100000001"]%string).
Proof. vm_compute. reflexivity. Qed.
Definition jforests_file : text := lit
"<Ensemble>
	<Tree leaves=""7"" weight=""1.0"">
		<SplitFeatures>129 129 107 72 55 54</SplitFeatures>
		<LeftChildren>1 3 5 -1 -3 -2</LeftChildren>
		<RightChildren>2 4 -4 -5 -6 -7</RightChildren>
		<Thresholds>14884 14826 11171 485 320 1214</Thresholds>
		<OriginalThresholds>268.00791914235936 265.01449371350714 13.917409408136482 19.112358794482084 0.009766221082829762 0.018525300616492706</OriginalThresholds>
		<LeafOutputs>-1.2156555533251343 -0.2370371246276912 -1.9329095710207922 0.8030836898094491 -0.010194310883442196 -1.939557007673878 0.584062922565639</LeafOutputs>
	</Tree>
	<Tree leaves=""7"" weight=""1.0"">
		<SplitFeatures>133 72 105 130 62 121</SplitFeatures>
		<LeftChildren>1 4 -3 -4 -1 -6</LeftChildren>
		<RightChildren>-2 2 3 -5 5 -7</RightChildren>
		<Thresholds>0 543 7553 15359 10922 31960</Thresholds>
		<OriginalThresholds>0.0 21.397960464750046 13.263678873222243 181.01421193338518 0.3333333333333333 -1.5976164200695848</OriginalThresholds>
		<LeafOutputs>-0.14431346869079953 1.3819800608689703 1.770799198202688 1.7353641847897887 0.22409245535128064 -0.3769555284258838 -1.793789588633319</LeafOutputs>
	</Tree>
</Ensemble>
".
Example C87_jforests_file : (match jf_load_text rd32 jforests_file with Parsed (Ok e) => Some (e_root e, e_feature e, map show32 (e_weight e)) | _ => None end) =
  Some ([0; 13], [129; 129; 107; 72; 55; 54; -1; -1; -1; -1; -1; -1; -1; 133; 72; 105; 130; 62; 121; -1; -1; -1; -1; -1; -1; -1], map lit ["1"; "1"]%string).
Proof. vm_compute. reflexivity. Qed.
(** Declarations, comments, references, quotes and empty elements. *)
Example C87_read : read_xml (lit "<?xml version='1.0'?><!-- a - b --><a b=""1 &lt; 2"" c='""'>x&#65;&#x62;<!-- --><d/>y<e f = '3'> </e ></a> <!---->") =
  Some (Elem "a" [("b", lit "1 < 2"); ("c", lit """")]%string (Some (lit "xAb")) [Elem "d" [] None []; Elem "e" [("f"%string, lit "3")] (Some (lit " ")) []]).
Proof. vm_compute. reflexivity. Qed.
(** Not documents: elements that overlap, two roots, an attribute given twice, a bare ampersand, a value without quotes, a text cut short. *)
Example C87_not_read : map read_xml (map lit ["<a><b></a></b>"; "<a/><b/>"; "<a b='1' b='2'/>"; "<a>1 & 2</a>"; "<a b=1/>"; "<a><b/>"; ""; "text"; "<a>]]></a>"; "<a><!-- -- --></a>"]%string) = repeat None 10.
Proof. vm_compute. reflexivity. Qed.
Example C87_written_example : exists x, writable x /\ write_xml x = lit "<a b=""&lt;&#10;&quot;"">1 &amp; 2</a>" /\ read_xml (write_xml x) = Some x.
Proof.
  exists (Elem "a" [("b"%string, lit "<" ++ [newline] ++ lit """")] (Some (lit "1 & 2")) []). split; [|vm_compute; auto].
  constructor.
  - exists "a"%char, []. split; [reflexivity|]. split; [right; left; cbv; split; discriminate|constructor].
  - constructor; [|constructor]. split; [exists "b"%char, []; split; [reflexivity|]; split; [right; left; cbv; split; discriminate|constructor]|].
    cbn [snd]. apply Forall_app. split; [apply data_xchar, (lit_data "<"); reflexivity|]. constructor; [left; cbn; tauto|apply data_xchar, (lit_data """"); reflexivity].
  - constructor; [intros []|constructor].
  - apply (lit_data "1 & 2"). reflexivity.
  - constructor.
Qed.
(** A carriage return in a text comes back as a newline. *)
Theorem C87_carriage_return_refuted : exists x y, x = Elem "a" [] (Some [ascii_of_nat 13]) [] /\ xml_document (write_xml x) y /\ ~ respaced x y.
Proof.
  exists (Elem "a" [] (Some [ascii_of_nat 13]) []), (Elem "a" [] (Some [newline]) []). split; [reflexivity|]. split; [apply reader_grammar; vm_compute; reflexivity|].
  intros R. inversion R as [? ? ? ? C|]; subst; [|contradiction]. destruct C as [C|[C _]]; discriminate C.
Qed.
(** A name that is not an XML name is written as it is, and the file is not read back. *)
Theorem C87_bad_name_refuted : exists x, x = Elem "a b" [] (Some (lit "1")) [] /\ read_xml (write_xml x) = None.
Proof. eexists. split; [reflexivity|]. vm_compute. reflexivity. Qed.
