(** C71: PrecisionMax (metrics/precision_max.py), exact arithmetic. *)
From Coq Require Import List ZArith QArith Reals Lia Lra Bool.
From Verif Require Import Base Lists Num M_Dataset M_Metrics S_Metrics L_Metrics L_MetricsR L_PrecisionMax.
Import ListNotations.
Local Open Scope R_scope.

(** The fraction of the retrieved rows that have the best label [m] of the query. *)
Theorem C71_fraction_of_best_labels : forall (argsort : list RE -> list nat), sorting argsort -> forall cutoff (y s : list RE) m,
  length y = length s -> In m y -> (forall v, In v y -> v <= m) ->
  let K := retrieved cutoff (length s) in
  let best := num_of (fun i => if Req_EM_T (lab argsort y s i) m then true else false) K in
  (K = 0%nat -> eval_per_query argsort (PrecisionMax cutoff) y s = Err ZeroDivisionError) /\
  ((0 < K)%nat -> eval_per_query argsort (PrecisionMax cutoff) y s = Ok (INR best / INR K) /\ 0 <= INR best / INR K <= 1 /\
     (K = length s -> 0 < INR best / INR K)).
Proof. exact precision_max_lemma. Qed.
Print Assumptions C71_fraction_of_best_labels.
(** It depends on which labels are the best ones, not on their scale. *)
Theorem C71_scale_of_labels : forall (argsort : list RE -> list nat), sorting argsort -> forall cutoff (y s : list RE) (g : R -> R),
  length y = length s -> y <> [] -> (forall a b, In a y -> In b y -> a < b -> g a < g b) ->
  eval_per_query argsort (PrecisionMax cutoff) (map g y) s = eval_per_query argsort (PrecisionMax cutoff) y s.
Proof. exact precision_max_scale. Qed.
Print Assumptions C71_scale_of_labels.
Theorem C71_empty_query : forall (argsort : list RE -> list nat), sorting argsort -> forall cutoff, eval_per_query argsort (PrecisionMax cutoff) [] [] = Err ValueError.
Proof. exact precision_max_empty. Qed.
Print Assumptions C71_empty_query.
(** A query without relevant rows still counts its best labels as hits. *)
Example C71_example :
  eval_per_query (N:=QN) stable_argsort (PrecisionMax (Some 2%Z)) [0; 2; 1; 2]%Q [4; 3; 2; 1]%Q = Ok (Qmake 1 2) /\
  eval_per_query (N:=QN) stable_argsort (PrecisionMax None) [0; 0; 0; 0]%Q [4; 3; 2; 1]%Q = Ok 1%Q /\
  eval_per_query (N:=QN) stable_argsort (Precision (N:=QN) None 1%Q) [0; 0; 0; 0]%Q [4; 3; 2; 1]%Q = Ok 0%Q /\
  eval_per_query (N:=QN) stable_argsort (PrecisionMax (Some 0%Z)) [0; 2]%Q [4; 3]%Q = Err ZeroDivisionError.
Proof. split; [vm_compute; reflexivity|]. split; [vm_compute; reflexivity|]. split; vm_compute; reflexivity. Qed.
