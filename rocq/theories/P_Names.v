(** C83: the printed names of metrics. *)
From Coq Require Import Ascii String List ZArith QArith Bool.
From Verif Require Import Base Num M_Dataset M_Metrics S_Metrics M_Text M_Names S_Names L_Names.
Import ListNotations.
Local Open Scope Z_scope.

(** With names free of "@" and "[", two metrics are printed alike exactly when their names,
    cutoffs and thresholds (where they are not 1) agree. *)
Theorem C83_printed_names : forall (N : num) (shown : N -> text), (forall a b, shown a = shown b -> a = b) ->
  forall n n' (m m' : any_metric), simple n -> simple n' ->
  (str_of shown n m = str_of shown n' m' <-> n = n' /\ cutoff_of m = cutoff_of m' /\ threshold_of m = threshold_of m').
Proof. intros N shown. exact (names_lemma shown). Qed.
Print Assumptions C83_printed_names.
(** In particular with the default names: classes are told apart, except Precision and PrecisionMax. *)
Theorem C83_default_names : forall (N : num) (shown : N -> text), (forall a b, shown a = shown b -> a = b) ->
  forall m m' : any_metric,
  (str_of shown (default_name m) m = str_of shown (default_name m') m' <-> alike m m' /\ cutoff_of m = cutoff_of m' /\ threshold_of m = threshold_of m').
Proof. intros N shown H m m'. rewrite (names_lemma shown H) by apply default_simple. rewrite default_alike. reflexivity. Qed.
Print Assumptions C83_default_names.
Definition shown_q (q : Q) : text := show_Z (Qnum q) ++ lit "/" ++ show_Z (Zpos (Qden q)).
Example C83_example :
  str_of (N:=QN) shown_q (lit "P") (Plain (Precision (N:=QN) (Some 10) 1%Q)) = lit "P@10" /\ str_of (N:=QN) shown_q (lit "P") (Plain (Precision (N:=QN) (Some 10) 3%Q)) = lit "P@10[>3/1]" /\
  str_of (N:=QN) shown_q (lit "MRR") (Plain (MRR (N:=QN) None 2%Q)) = lit "MRR[>2/1]" /\ str_of (N:=QN) shown_q (lit "NDCG") (Plain (NDCGfresh (N:=QN) 1%Q Exp (Some 5))) = lit "NDCG@5" /\
  str_of (N:=QN) shown_q (lit "K") AnyTau = lit "K".
Proof. repeat split. Qed.
(** Metrics printed alike can differ in value: Precision and PrecisionMax, and metrics whose other
    parameters differ. *)
Theorem C83_same_name_refuted : forall shown : QN -> text,
  (exists a b y s, str_of shown (default_name (Plain a)) (Plain a) = str_of shown (default_name (Plain b)) (Plain b) /\ a = Precision (N:=QN) (Some 1) 1%Q /\ b = PrecisionMax (N:=QN) (Some 1) /\
     eval_per_query (N:=QN) stable_argsort a y s = Ok 1%Q /\ eval_per_query (N:=QN) stable_argsort b y s = Ok 0%Q) /\
  (exists a b y s, str_of shown (default_name (Plain a)) (Plain a) = str_of shown (default_name (Plain b)) (Plain b) /\ a = DCG (N:=QN) Flat (Some 1) /\ b = DCG (N:=QN) Exp (Some 1) /\
     eval_per_query (N:=QN) stable_argsort a y s = Ok 3%Q /\ eval_per_query (N:=QN) stable_argsort b y s = Ok 7%Q) /\
  (exists a b y s, str_of shown (default_name (Plain a)) (Plain a) = str_of shown (default_name (Plain b)) (Plain b) /\ a = MAP (N:=QN) 1%Q None /\ b = MAP (N:=QN) 0%Q None /\
     eval_per_query (N:=QN) stable_argsort a y s = Ok 1%Q /\ eval_per_query (N:=QN) stable_argsort b y s = Ok 0%Q).
Proof.
  intros shown. split; [|split].
  - exists (Precision (N:=QN) (Some 1) 1%Q), (PrecisionMax (N:=QN) (Some 1)), [1%Q; 2%Q], [5%Q; 4%Q]. repeat split; vm_compute; reflexivity.
  - exists (DCG (N:=QN) Flat (Some 1)), (DCG (N:=QN) Exp (Some 1)), [3%Q], [1%Q]. repeat split; vm_compute; reflexivity.
  - exists (MAP (N:=QN) 1%Q None), (MAP (N:=QN) 0%Q None), [0%Q], [1%Q]. repeat split; vm_compute; reflexivity.
Qed.
Print Assumptions C83_same_name_refuted.
(** A chosen name can imitate a cutoff. *)
Theorem C83_chosen_name_refuted : forall (N : num) (shown : N -> text), exists n n' (m m' : @any_metric N), n <> n' /\ cutoff_of m <> cutoff_of m' /\ str_of shown n m = str_of shown n' m'.
Proof. intros N shown. exists (lit "NDCG@10"), (lit "NDCG"), (Plain (ERR None)), (Plain (ERR (Some 10))). split; [discriminate|]. split; [discriminate|]. reflexivity. Qed.
Print Assumptions C83_chosen_name_refuted.
