(** What a metric computes from the text of a data set and a model, without arrays: values
    by feature number, scores by line, values of the metric by query. *)
From Coq Require Import List ZArith Bool.
From Verif Require Import Base Num M_Text M_Svmlight S_Svmlight M_Dataset M_Metrics M_Ensemble S_Ensemble.
Import ListNotations.
Local Open Scope Z_scope.

Section Lines.
Context {N : num} (F : fmt N).
(** The value of feature number [f] (from 0) on a line; the file numbers them from 1. *)
Definition feature_value (e : entry) (f : Z) : N := clamp F (cell F (en_pairs e) (f + 1)).
(** The value of the leaf that a line reaches, and the sum over the trees. *)
Fixpoint line_leaf {A} (e : entry) (t : tree A N) : N :=
  match t with
  | Leaf _ v => v
  | Node _ f thr l r => if nleb (feature_value e f) thr then line_leaf e l else line_leaf e r
  end.
Definition line_score {A} (wts : list (N * tree A N)) (e : entry) : N :=
  fold_left (fun y p => nf32 (nadd y (nf32 (nmul (line_leaf e (snd p)) (fst p))))) wts nzero.
(** Learning rate and base score. *)
Definition scaled (lr : N) (base : option N) (v : N) : N :=
  let v1 := if neqb lr none then v else nf32 (nmul v lr) in
  match base with Some b => if neqb b nzero then v1 else nf32 (nadd v1 b) | None => v1 end.
End Lines.

(** The distinct values of a list, in the order of their first occurrence. *)
Fixpoint first_seen (l : list Z) : list Z :=
  match l with
  | [] => []
  | x :: r => x :: filter (fun z => negb (z =? x)) (first_seen r)
  end.

(** The column of the lines of one query. *)
Fixpoint of_query {A} (q : Z) (ids : list Z) (l : list A) : list A :=
  match ids, l with
  | i :: ids', a :: l' => if i =? q then a :: of_query q ids' l' else of_query q ids' l'
  | _, _ => []
  end.
(** The values of a metric on the queries, or the first error. *)
Inductive values_of {V} (fq : list V -> list V -> res V) (ids : list Z) (y s : list V) : list Z -> res (list V) -> Prop :=
| no_query : values_of fq ids y s [] (Ok [])
| one_more q qs x vs : fq (of_query q ids y) (of_query q ids s) = Ok x ->
    values_of fq ids y s qs (Ok vs) -> values_of fq ids y s (q :: qs) (Ok (x :: vs))
| error_now q qs e : fq (of_query q ids y) (of_query q ids s) = Err e -> values_of fq ids y s (q :: qs) (Err e)
| error_later q qs x e : fq (of_query q ids y) (of_query q ids s) = Ok x ->
    values_of fq ids y s qs (Err e) -> values_of fq ids y s (q :: qs) (Err e).

(** A readable data file: each line that is not a comment has a query id and a label that
    fits, the ids of the features increase, the first line has a feature (or no line has),
    the lines of a query follow each other. *)
Record data_file {V} (F : fmt V) (f : text) (es : list entry) (ys : list V) (ids : list Z) : Prop := {
  df_text : exists ls, file_text f ls /\ entries ls es;
  df_some : es <> [];
  df_increasing : Forall (fun e => increasing (en_pairs e)) es;
  df_first : (exists e r, es = e :: r /\ en_pairs e <> []) \/ (forall e, In e es -> en_pairs e = []);
  df_labels : Forall2 (fun e y => rd_label F (en_label e) = Some y) es ys;
  df_qids : Forall2 (fun e q => en_qid e = Some q) es ids;
  df_grouped : S_Dataset.grouped ids;
  df_size : Z.of_nat (length es * width es) < 2 ^ 31
}.
(** Some line mentions feature [f] (from 0) or a later one. *)
Definition mentioned (es : list entry) (f : Z) : Prop :=
  exists e p, In e es /\ In p (en_pairs e) /\ f + 1 <= fst p.

(** What the library answers on a data file for a model with weighted trees [wts]: score
    refuses when a tree tests a feature that no line reaches; otherwise the score of a line
    is the sum over the trees, and a metric is computed query by query. *)
Section Answers.
Context {N : num} (F : fmt N) (rowsum : list N -> N) (digest : list (list N) -> list N -> list Z -> Z).
Definition answers {A} (wts : list (N * tree A N)) (lr : N) (base : option N) (es : list entry) (ys : list N) (ids : list Z)
  (m : model N) (d : dataset N) : Prop :=
  forall key cache,
    ((exists p g, In p wts /\ In g (splits (snd p)) /\ ~ mentioned es g) ->
      snd (score rowsum digest m (key, d) false cache) = Err RuntimeError) /\
    ((forall p g, In p wts -> In g (splits (snd p)) -> mentioned es g) ->
      let s := map (fun e => scaled lr base (line_score F wts e)) es in
      snd (score rowsum digest m (key, d) false cache) = Ok (Basic (Some s)) /\
      (forall fq v, values_of fq ids ys s (first_seen ids) (Ok v) -> metric_eval fq d s = Ok (nanmean (map nf32 v), map nf32 v)) /\
      (forall fq e, values_of fq ids ys s (first_seen ids) (Err e) -> metric_eval fq d s = Err e)).
End Answers.
