(** Specification vocabulary for analyses with metric objects. *)
From Coq Require Import List ZArith Bool.
From Verif Require Import Base Num M_Dataset M_Metrics M_NDCG S_NDCG M_Ensemble M_Effectiveness M_MetricObjects.
Import ListNotations.

(** The data sets an analysis may pass to a metric. *)
Fixpoint asks_in {N : num} {A} (U : obj (N:=N) -> Prop) (p : prog (N:=N) A) : Prop :=
  match p with
  | Ret _ => True
  | Ask _ o _ k => U o /\ forall v, asks_in U (k v)
  end.
Definition actions_in {N : num} (U : obj (N:=N) -> Prop) (h : list (action N)) : Prop :=
  Forall (fun a => match a with Analysis _ p => asks_in U p | PerQuery _ _ _ => True end) h.

(** Data sets returned by the constructor, no two of which can be confused by a metric. *)
Definition separate {N : num} (digest : list (list N) -> list N -> list Z -> Z) (U : obj (N:=N) -> Prop) : Prop :=
  (forall o, U o -> made (snd o)) /\ (forall k o, U k -> U o -> compatible digest k o).

(** Metric objects that were just constructed. *)
Definition new_objects {N : num} (ms : list (mobj N)) : Prop :=
  Forall (fun m => match m with Plain _ => True | Ndcg _ _ _ st => st = ndcg_init end) ms.

(** What a metric is meant to compute, from the data set and the scores only. *)
Definition meant {N : num} (argsort : list N -> list nat) (m : mobj N) : evaluator (N:=N) :=
  match m with
  | Plain f => f
  | Ndcg norel g cutoff _ => metric_eval (ndcg32 argsort norel g cutoff)
  end.
(** The objects at positions [js] are meant to compute [fs]. *)
Definition positions {N : num} (argsort : list N -> list nat) (ms : list (mobj N)) (js : list nat) (fs : list (evaluator (N:=N))) : Prop :=
  Forall2 (fun j f => exists m, nth_error ms j = Some m /\ f = meant argsort m) js fs.
