(** Proofs: the other model files. *)
From Coq Require Import Ascii String List ZArith Lia Bool Permutation Sorted.
From Verif Require Import Base Lists Num M_Text M_Svmlight S_Svmlight M_Dataset S_Dataset M_Metrics
  M_Ensemble S_Ensemble M_Loaders M_TextLoaders S_Loaders L_Loaders L_Float2 L_Lgbm L_CatBoost L_Export L_Twins4 M_Xml S_Xml L_Xml5 S_Pipeline L_Pipeline.
Import ListNotations.
Local Open Scope Z_scope.

Section Files.
Context {N : num} (F : fmt N) (rowsum : list N -> N) (digest : list (list N) -> list N -> list Z -> Z).
Variable rd : text -> option N.
Notation cell := (cell_of rd).
Lemma convert_pairs {A B} (w : B -> N) (k : B -> tree A text) h1 h2 (ps : list B) :
  Forall (fun p => Forall (fun g => 0 <= g) (splits (k p))) ps ->
  Forall (fun p : N * tree A N => Forall (fun g => 0 <= g) (splits (snd p))) (map (fun p => (w p, convert h1 h2 (k p))) ps).
Proof.
  intros H. apply Forall_forall. intros p Hp. apply in_map_iff in Hp as (q & <- & Hq). cbn [snd]. rewrite splits_convert.
  rewrite Forall_forall in H. auto.
Qed.
Theorem C99_lightgbm half lr base ps lm g f es ys ids :
  lgbm_file rd (map fst ps) lm -> file_text g lm ->
  Forall (fun p => arr_tree (fst p) (snd p) /\ fits16 (snd p) /\
            Forall (readable rd) (a_threshold (fst p)) /\ Forall (readable rd) (a_leaf (fst p))) ps ->
  Forall (fun p => Forall (fun g => 0 <= g) (splits (snd p))) ps -> ps <> [] -> data_file F f es ys ids ->
  exists m d, construct half LightGBM lr base None (lgbm_load rd g) = Ok m /\ ds_load F f = Ok d /\
    answers F rowsum digest (map (fun p => (none, convert cell cell (snd p))) ps) lr base es ys ids m d.
Proof.
  intros L G OK Hpos Hne D. destruct (C40_lemma rd ps lm g L G OK) as (e & E1 & E2). rewrite E1. exists (mkModel e lr base []).
  destruct (C99_erased F rowsum digest (mkModel e lr base []) f es ys ids
    (map (convert cell cell) (placed 0 ps)) (map (fun p => (none, convert cell cell (snd p))) ps)) as (d & D1 & D2).
  - exact D.
  - rewrite map_map. exact E2.
  - rewrite erase_converted, erase_placed, <- erase_converted, !map_map. reflexivity.
  - destruct ps; [auto|discriminate].
  - apply convert_pairs. exact Hpos.
  - reflexivity.
  - exists d. split; [destruct base; reflexivity|]. split; [exact D1|exact D2].
Qed.
Theorem C99_jforests half lr base (ps : list (text * arrays * tree Z text)) t x f es ys ids :
  xml_document t x -> jf_doc (map fst ps) x ->
  Forall (fun p => readable rd (fst (fst p)) /\ arr_tree (snd (fst p)) (snd p) /\ fits16 (snd p) /\
            Forall (readable rd) (a_threshold (snd (fst p))) /\ Forall (readable rd) (a_leaf (snd (fst p)))) ps ->
  Forall (fun p => Forall (fun g => 0 <= g) (splits (snd p))) ps -> ps <> [] -> data_file F f es ys ids ->
  exists e m d, jf_load_text rd t = Parsed (Ok e) /\ construct half Jforests lr base None (Ok e) = Ok m /\ ds_load F f = Ok d /\
    answers F rowsum digest (map (fun p => (cell (fst (fst p)), convert cell cell (snd p))) ps) lr base es ys ids m d.
Proof.
  intros X J OK Hpos Hne D. destruct (jforests_text rd ps t x X J OK) as (e & E1 & E2). exists e, (mkModel e lr base []).
  destruct (C99_erased F rowsum digest (mkModel e lr base []) f es ys ids
    (map (convert cell cell) (placed 0 (map (fun p => (snd (fst p), snd p)) ps))) (map (fun p => (cell (fst (fst p)), convert cell cell (snd p))) ps)) as (d & D1 & D2).
  - exact D.
  - rewrite map_map. exact E2.
  - rewrite erase_converted, erase_placed, <- erase_converted, !map_map. reflexivity.
  - destruct ps; [auto|discriminate].
  - apply convert_pairs. exact Hpos.
  - reflexivity.
  - exists d. split; [exact E1|]. split; [destruct base; reflexivity|]. split; [exact D1|exact D2].
Qed.
Theorem C99_scikit half {V} (fixed str : V -> text) base lr b l ss ts f es ys ids :
  Forall2 (fun s t => sk_holds (sk_left s) (sk_right s) (sk_feature s) (sk_threshold s) (sk_value s) t /\
                      own_numbers t /\ length (sk_feature s) = size t) ss ts ->
  Forall (fun t => (Forall (fun x => plain_number (fixed x)) (thresholds t) /\ Forall (fun x => plain_number (str x)) (outputs t)) /\
                   fits16 t /\ Forall (fun x => readable rd (fixed x)) (thresholds t) /\
                   Forall (fun x => readable rd (str x)) (outputs t)) ts ->
  plain_number (fixed base) -> plain_number (fixed lr) -> rd (fixed base) = Some b -> rd (fixed lr) = Some l ->
  Forall (fun t => Forall (fun g => 0 <= g) (splits t)) ts -> ts <> [] -> data_file F f es ys ids ->
  exists g e m d, sk_export fixed str base lr ss = Ok g /\ sk_load rd g = Ok (e, Some b, Some l) /\
    construct half ScikitLearn l (Some b) None (Ok e) = Ok m /\ ds_load F f = Ok d /\
    answers F rowsum digest (map (fun t => (none, convert (fun x => cell (fixed x)) (fun v => cell (str v)) t)) ts) l (Some b) es ys ids m d.
Proof.
  intros H1 H2 P1 P2 R1 R2 Hpos Hne D. destruct (C43_lemma rd fixed str base lr b l ss ts H1 H2 P1 P2 R1 R2) as (g & e & E0 & E1 & E2).
  exists g, e, (mkModel e l (Some b) []).
  destruct (C99_erased F rowsum digest (mkModel e l (Some b) []) f es ys ids
    (shifted 0 (map (convert (fun x => cell (fixed x)) (fun v => cell (str v))) ts)) (map (fun t => (none, convert (fun x => cell (fixed x)) (fun v => cell (str v)) t)) ts)) as (d & D1 & D2).
  - exact D.
  - rewrite map_map. exact E2.
  - rewrite erase_shifted, !map_map. reflexivity.
  - destruct ts; [auto|discriminate].
  - apply Forall_forall. intros p Hp. apply in_map_iff in Hp as (q & <- & Hq). cbn [snd]. rewrite splits_convert.
    rewrite Forall_forall in Hpos. auto.
  - reflexivity.
  - exists d. split; [exact E0|]. split; [exact E1|]. split; [reflexivity|]. split; [exact D1|exact D2].
Qed.
Theorem C99_catboost half lr base n (ts : list (tree Z N)) nodes junk f es ys ids :
  cat_file ts nodes -> ts <> [] -> Forall cat_tree ts -> Forall fits16 ts ->
  Forall (fun t => size t = n) ts -> Z.of_nat n <= 65535 -> (length ts <= length junk)%nat ->
  Forall (fun t => Forall (fun g => 0 <= g) (splits t)) ts -> data_file F f es ys ids ->
  exists m d, construct half CatBoost lr base None (cat_load junk nodes) = Ok m /\ ds_load F f = Ok d /\
    answers F rowsum digest (map (fun t => (none, convert nf32 nf32 t)) ts) lr base es ys ids m d.
Proof.
  intros C Hne T FT SZ NB LJ Hpos D. destruct (C45_lemma n ts nodes junk C Hne T FT SZ NB LJ) as (e & E1 & E2). rewrite E1. exists (mkModel e lr base []).
  destruct (C99_erased F rowsum digest (mkModel e lr base []) f es ys ids
    (backwards (Z.of_nat n) 0 (map (convert nf32 nf32) ts)) (map (fun t => (none, convert nf32 nf32 t)) ts)) as (d & D1 & D2).
  - exact D.
  - rewrite map_map. exact E2.
  - rewrite erase_backwards, !map_map. reflexivity.
  - destruct ts; [auto|discriminate].
  - apply Forall_forall. intros p Hp. apply in_map_iff in Hp as (q & <- & Hq). cbn [snd]. rewrite splits_convert.
    rewrite Forall_forall in Hpos. auto.
  - reflexivity.
  - exists d. split; [destruct base; reflexivity|]. split; [exact D1|exact D2].
Qed.
End Files.
