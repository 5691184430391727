(** Property C99: from the text of a data set and of a model to the value of a metric. *)
From Coq Require Import Ascii String List ZArith QArith Lia Bool Sorted.
From Verif Require Import Base Lists Num M_Text M_Svmlight S_Svmlight M_Dataset S_Dataset M_Metrics M_Ensemble S_Ensemble M_Loaders M_TextLoaders
  S_Loaders M_Xml S_Xml M_NDCG S_Metrics L_Dataset3 S_Pipeline L_Pipeline L_Pipeline2 T_Svmlight.
Import ListNotations.
Local Open Scope Z_scope.

(** Any model whose arrays hold its trees. *)
Theorem C99_from_file_to_metric : forall (N : num) (F : fmt N) (rowsum : list N -> N) (digest : list (list N) -> list N -> list Z -> Z)
    (A : Type) (m : model N) f es ys ids (ts : list (tree Z N)) (wts : list (N * tree A N)),
  data_file F f es ys ids -> laid_out (m_ens m) ts (map fst wts) -> map erase ts = map erase (map snd wts) -> wts <> [] ->
  Forall (fun p => Forall (fun g => 0 <= g) (splits (snd p))) wts -> m_cache m = [] ->
  exists d, ds_load F f = Ok d /\ answers F rowsum digest wts (m_lr m) (m_base m) es ys ids m d.
Proof. exact (@C99_erased). Qed.
Print Assumptions C99_from_file_to_metric.

(** A dump of XGBoost: one half is added when no base score is given. *)
Theorem C99_xgboost_files : forall (N : num) (F : fmt N) (rowsum : list N -> N) (digest : list (list N) -> list N -> list Z -> Z)
    (rd : text -> option N) (lower : N -> N) (half lr : N) (base : option N) (ts : list (tree Z text)) lm g f es ys ids,
  xgb_lines 0 ts lm -> file_text g lm -> Forall (fun t => fits16 t /\ Forall (readable rd) (values t)) ts -> ts <> [] -> data_file F f es ys ids ->
  exists m d, construct half XGBoost lr base None (xgb_load rd lower g) = Ok m /\ ds_load F f = Ok d /\
    answers F rowsum digest (map (fun t => (none, convert (fun x => lower (cell_of rd x)) (cell_of rd) t)) ts)
      lr (Some (match base with Some b => b | None => half end)) es ys ids m d.
Proof. exact (@C99_xgboost). Qed.
Print Assumptions C99_xgboost_files.

(** A file of QuickRank. *)
Theorem C99_quickrank_files : forall (N : num) (F : fmt N) (rowsum : list N -> N) (digest : list (list N) -> list N -> list Z -> Z)
    (rd : text -> option N) (half lr : N) (base : option N) wts t x f es ys ids,
  xml_document t x -> quick_doc wts x ->
  Forall (fun p => readable rd (fst p) /\ Forall (readable rd) (values (snd p)) /\ fits16 (snd p)) wts ->
  Forall (fun p => Forall (fun g => 0 <= g) (splits (snd p))) wts -> wts <> [] -> data_file F f es ys ids ->
  exists e m d, quick_load_text rd t = Parsed (Ok e) /\ construct half QuickRank lr base None (Ok e) = Ok m /\ ds_load F f = Ok d /\
    answers F rowsum digest (map (fun p => (cell_of rd (fst p), convert (cell_of rd) (cell_of rd) (snd p))) wts) lr base es ys ids m d.
Proof. exact (@C99_quickrank). Qed.
Print Assumptions C99_quickrank_files.

(** A file of LightGBM. *)
Theorem C99_lightgbm_files : forall (N : num) (F : fmt N) (rowsum : list N -> N) (digest : list (list N) -> list N -> list Z -> Z)
    (rd : text -> option N) (half lr : N) (base : option N) ps lm g f es ys ids,
  lgbm_file rd (map fst ps) lm -> file_text g lm ->
  Forall (fun p => arr_tree (fst p) (snd p) /\ fits16 (snd p) /\
            Forall (readable rd) (a_threshold (fst p)) /\ Forall (readable rd) (a_leaf (fst p))) ps ->
  Forall (fun p => Forall (fun g => 0 <= g) (splits (snd p))) ps -> ps <> [] -> data_file F f es ys ids ->
  exists m d, construct half LightGBM lr base None (lgbm_load rd g) = Ok m /\ ds_load F f = Ok d /\
    answers F rowsum digest (map (fun p => (none, convert (cell_of rd) (cell_of rd) (snd p))) ps) lr base es ys ids m d.
Proof. exact (@C99_lightgbm). Qed.
Print Assumptions C99_lightgbm_files.

(** A file of Jforests. *)
Theorem C99_jforests_files : forall (N : num) (F : fmt N) (rowsum : list N -> N) (digest : list (list N) -> list N -> list Z -> Z)
    (rd : text -> option N) (half lr : N) (base : option N) (ps : list (text * arrays * tree Z text)) t x f es ys ids,
  xml_document t x -> jf_doc (map fst ps) x ->
  Forall (fun p => readable rd (fst (fst p)) /\ arr_tree (snd (fst p)) (snd p) /\ fits16 (snd p) /\
            Forall (readable rd) (a_threshold (snd (fst p))) /\ Forall (readable rd) (a_leaf (snd (fst p)))) ps ->
  Forall (fun p => Forall (fun g => 0 <= g) (splits (snd p))) ps -> ps <> [] -> data_file F f es ys ids ->
  exists e m d, jf_load_text rd t = Parsed (Ok e) /\ construct half Jforests lr base None (Ok e) = Ok m /\ ds_load F f = Ok d /\
    answers F rowsum digest (map (fun p => ((cell_of rd) (fst (fst p)), convert (cell_of rd) (cell_of rd) (snd p))) ps) lr base es ys ids m d.
Proof. exact (@C99_jforests). Qed.
Print Assumptions C99_jforests_files.

(** A scikit-learn model exported and loaded: base score and learning rate come from the file. *)
Theorem C99_scikit_files : forall (N : num) (F : fmt N) (rowsum : list N -> N) (digest : list (list N) -> list N -> list Z -> Z)
    (rd : text -> option N) (half : N) (V : Type) (fixed str : V -> text) base lr b l ss ts f es ys ids,
  Forall2 (fun s t => sk_holds (sk_left s) (sk_right s) (sk_feature s) (sk_threshold s) (sk_value s) t /\
                      own_numbers t /\ length (sk_feature s) = size t) ss ts ->
  Forall (fun t => (Forall (fun x => plain_number (fixed x)) (thresholds t) /\ Forall (fun x => plain_number (str x)) (outputs t)) /\
                   fits16 t /\ Forall (fun x => readable rd (fixed x)) (thresholds t) /\
                   Forall (fun x => readable rd (str x)) (outputs t)) ts ->
  plain_number (fixed base) -> plain_number (fixed lr) -> rd (fixed base) = Some b -> rd (fixed lr) = Some l ->
  Forall (fun t => Forall (fun g => 0 <= g) (splits t)) ts -> ts <> [] -> data_file F f es ys ids ->
  exists g e m d, sk_export fixed str base lr ss = Ok g /\ sk_load rd g = Ok (e, Some b, Some l) /\
    construct half ScikitLearn l (Some b) None (Ok e) = Ok m /\ ds_load F f = Ok d /\
    answers F rowsum digest (map (fun t => (none, convert (fun x => (cell_of rd) (fixed x)) (fun v => (cell_of rd) (str v)) t)) ts) l (Some b) es ys ids m d.
Proof. exact (@C99_scikit). Qed.
Print Assumptions C99_scikit_files.

(** A model of CatBoost whose trees have the same size. *)
Theorem C99_catboost_files : forall (N : num) (F : fmt N) (rowsum : list N -> N) (digest : list (list N) -> list N -> list Z -> Z)
    (half lr : N) (base : option N) n (ts : list (tree Z N)) nodes junk f es ys ids,
  cat_file ts nodes -> ts <> [] -> Forall cat_tree ts -> Forall fits16 ts ->
  Forall (fun t => size t = n) ts -> Z.of_nat n <= 65535 -> (length ts <= length junk)%nat ->
  Forall (fun t => Forall (fun g => 0 <= g) (splits t)) ts -> data_file F f es ys ids ->
  exists m d, construct half CatBoost lr base None (cat_load junk nodes) = Ok m /\ ds_load F f = Ok d /\
    answers F rowsum digest (map (fun t => (none, convert nf32 nf32 t)) ts) lr base es ys ids m d.
Proof. exact (@C99_catboost). Qed.
Print Assumptions C99_catboost_files.

(** ** One data file and one model *)
Definition QFN : fmt QN := QF.
Definition pipe_data : text := unlines ["2 qid:7 1:1 3:4"; "0 qid:7 2:1"; "1 qid:4 3:9"]%string.
Definition pipe_entries : list entry :=
  [mkEntry (Dec false 2 0) (Some 7) [(1, Dec false 1 0); (3, Dec false 4 0)];
   mkEntry (Dec false 0 0) (Some 7) [(2, Dec false 1 0)];
   mkEntry (Dec false 1 0) (Some 4) [(3, Dec false 9 0)]].
Definition pipe_trees : list (QN * tree unit QN) :=
  [(1%Q, Node tt 2 3%Q (Leaf tt 5%Q) (Leaf tt 1%Q)); (1%Q, Node tt 0 (1 # 2)%Q (Leaf tt 2%Q) (Leaf tt 3%Q))].
Definition pipe_dump : text := unlines
  ["booster[0]:"; "0:[f2<3] yes=1,no=2,missing=1"; "1:leaf=5"; "2:leaf=1";
   "booster[1]:"; "0:[f0<0.5] yes=1,no=2,missing=1"; "1:leaf=2"; "2:leaf=3"]%string.
Ltac chars := repeat constructor; cbn; tauto.
Ltac one_digit c := apply (numeral_intro [] false (lit c) [] [] [] 0); [constructor|chars|chars|discriminate|auto|constructor].
Ltac one_qid c n := apply (qid_some (lit " ") (lit c) n); [chars|discriminate|];
  exists [], false, (lit c); repeat split; try constructor; try chars; try discriminate; reflexivity.
Ltac one_pair c n v d rest ps := apply (pairs_cons (lit " ") (lit c) n (lit v) d rest ps); [chars|discriminate|repeat split; [chars|discriminate]|one_digit v|].
Example pipe_file : data_file QFN pipe_data pipe_entries [2; 0; 1]%Q [7; 7; 4].
Proof.
  assert (Hb : forall b, forallb (fun c => negb (Ascii.eqb c newline || Ascii.eqb c nul)) b = true -> line_body b).
  { intros b H. rewrite forallb_forall in H. split; intros Hin; apply H in Hin; vm_compute in Hin; discriminate. }
  constructor.
  - exists [lit "2 qid:7 1:1 3:4" ++ [newline]; lit "0 qid:7 2:1" ++ [newline]; lit "1 qid:4 3:9" ++ [newline]]. split.
    + apply (file_cons (lit "2 qid:7 1:1 3:4") (unlines ["0 qid:7 2:1"; "1 qid:4 3:9"]%string)); [apply Hb; reflexivity|].
      apply (file_cons (lit "0 qid:7 2:1") (unlines ["1 qid:4 3:9"]%string)); [apply Hb; reflexivity|].
      apply (file_cons (lit "1 qid:4 3:9") []); [apply Hb; reflexivity|constructor].
    + apply entries_data; [|apply entries_data; [|apply entries_data; [|constructor]]].
      * apply (data_line_intro [] (lit "2") (Dec false 2 0) (lit " qid:7") (Some 7) (lit " 1:1 3:4") _ [newline] []);
          [constructor|one_digit "2"%string|one_qid "7"%string 7| |chars|left; discriminate|left; reflexivity].
        one_pair "1"%string 1 "1"%string (Dec false 1 0) (lit " 3:4") [(3, Dec false 4 0)].
        one_pair "3"%string 3 "4"%string (Dec false 4 0) (@nil ascii) (@nil (Z * numtok)). constructor.
      * apply (data_line_intro [] (lit "0") (Dec false 0 0) (lit " qid:7") (Some 7) (lit " 2:1") _ [newline] []);
          [constructor|one_digit "0"%string|one_qid "7"%string 7| |chars|left; discriminate|left; reflexivity].
        one_pair "2"%string 2 "1"%string (Dec false 1 0) (@nil ascii) (@nil (Z * numtok)). constructor.
      * apply (data_line_intro [] (lit "1") (Dec false 1 0) (lit " qid:4") (Some 4) (lit " 3:9") _ [newline] []);
          [constructor|one_digit "1"%string|one_qid "4"%string 4| |chars|left; discriminate|left; reflexivity].
        one_pair "3"%string 3 "9"%string (Dec false 9 0) (@nil ascii) (@nil (Z * numtok)). constructor.
  - discriminate.
  - repeat constructor; cbn; lia.
  - left. do 2 eexists. split; [reflexivity|discriminate].
  - repeat constructor.
  - repeat constructor.
  - apply L_Dataset3.groupedb_ok. vm_compute. reflexivity.
  - vm_compute. reflexivity.
Qed.
(** Scores 4, 7 and 3, and one half; the best document of query 7 is not relevant, that of
    query 4 is. *)
Definition prec1 : list QN -> list QN -> res QN := eval_per_query (N:=QN) stable_argsort (Precision (N:=QN) (Some 1) 1%Q).
Example C99_example :
  map (fun e => scaled (N:=QN) 1%Q (Some (1 # 2)%Q) (line_score QFN pipe_trees e)) pipe_entries = [9 # 2; 15 # 2; 7 # 2]%Q /\
  values_of prec1 [7; 7; 4] [2; 0; 1]%Q [9 # 2; 15 # 2; 7 # 2]%Q (first_seen [7; 7; 4]) (Ok [0; 1]%Q) /\
  (do m <- construct (N:=QN) (1 # 2)%Q XGBoost 1%Q None None (xgb_load (N:=QN) rdQ (fun t => t) pipe_dump);
   do d <- ds_load QFN pipe_data;
   do a <- snd (score (N:=QN) (fun _ => 0%Q) (fun _ _ _ => 0) m (0%nat, d) false false);
   match a with
   | Basic (Some s) => do r <- metric_eval prec1 d s; Ok (s, r)
   | _ => Err PlainException
   end) = Ok ([9 # 2; 15 # 2; 7 # 2]%Q, ((1 # 2)%Q, [0; 1]%Q)).
Proof.
  split; [vm_compute; reflexivity|]. split; [|vm_compute; reflexivity].
  change (first_seen [7; 7; 4]) with [7; 4]. apply one_more; [vm_compute; reflexivity|]. apply one_more; [vm_compute; reflexivity|]. constructor.
Qed.
(** The same trees in a file of LightGBM; no base score. *)
Definition pipe_lgbm : text := unlines
  ["Tree=0"; "num_leaves=2"; "split_feature=2"; "threshold=3"; "left_child=-1"; "right_child=-2"; "leaf_value=5 1"; "shrinkage=0.1"; "";
   "Tree=1"; "num_leaves=2"; "split_feature=0"; "threshold=0.5"; "left_child=-1"; "right_child=-2"; "leaf_value=2 3"; "shrinkage=0.1"]%string.
Example C99_lightgbm_example :
  (do m <- construct (N:=QN) (1 # 2)%Q LightGBM 1%Q None None (lgbm_load (N:=QN) rdQ pipe_lgbm);
   do d <- ds_load QFN pipe_data;
   do a <- snd (score (N:=QN) (fun _ => 0%Q) (fun _ _ _ => 0) m (0%nat, d) false true);
   match a with
   | Basic (Some s) => do r <- metric_eval prec1 d s; Ok (s, r)
   | _ => Err PlainException
   end) = Ok ([4; 7; 3]%Q, ((1 # 2)%Q, [0; 1]%Q)).
Proof. vm_compute. reflexivity. Qed.
(** A model that also tests feature 4, which no line of the file reaches, is refused,
    although a line that does not mention a feature has the value 0 for it. *)
Theorem C99_unmentioned_feature_refuted :
  exists f g (d : dataset QN) m, ds_load QFN f = Ok d /\ construct (N:=QN) (1 # 2)%Q XGBoost 1%Q None None (xgb_load (N:=QN) rdQ (fun t => t) g) = Ok m /\
    snd (score (N:=QN) (fun _ => 0%Q) (fun _ _ _ => 0) m (0%nat, d) false false) = Err RuntimeError /\
    Forall (fun e => line_leaf QFN e (Node tt 3 1%Q (Leaf tt 5%Q) (Leaf tt 1%Q)) = 5%Q) pipe_entries /\ f = pipe_data.
Proof.
  exists pipe_data, (unlines ["booster[0]:"; "0:[f3<1] yes=1,no=2,missing=1"; "1:leaf=5"; "2:leaf=1"]%string).
  do 2 eexists. split; [vm_compute; reflexivity|]. split; [vm_compute; reflexivity|]. split; [vm_compute; reflexivity|].
  split; [repeat constructor|reflexivity].
Qed.
