(** Names of metrics: what can be read off them. *)
From Coq Require Import Ascii String List ZArith Bool.
From Verif Require Import Base Num M_Dataset M_Metrics M_Text M_Names.
Import ListNotations.

(** The cutoff of a metric, and its threshold if it differs from 1. *)
Definition cutoff_of {N : num} (m : @any_metric N) : option Z :=
  match m with
  | Plain (Precision k _) => k | Plain (PrecisionMax k) => k | Plain (Recall _ k _) => k | Plain (MRR k _) => k | Plain (MAP _ k) => k | Plain (DCG _ k) => k
  | Plain (NDCGfresh _ _ k) => k | Plain (ERR k) => k | Plain (Pfound k _) => k | Plain (RBP k _ _) => k | Plain (RMSE k) => k | AnyMSE k => k | AnyTau => None | AnyRho => None
  end.
Definition threshold_of {N : num} (m : @any_metric N) : option N :=
  match m with
  | Plain (Precision _ t) | Plain (Recall _ _ t) | Plain (MRR _ t) | Plain (RBP _ t _) => if neqb t none then None else Some t
  | _ => None
  end.
(** Two metrics of the same class; Precision and PrecisionMax count as one class. *)
Definition alike {N : num} (a b : @any_metric N) : Prop :=
  match a, b with
  | Plain (Precision _ _), Plain (Precision _ _) | Plain (Precision _ _), Plain (PrecisionMax _) | Plain (PrecisionMax _), Plain (Precision _ _) | Plain (PrecisionMax _), Plain (PrecisionMax _)
  | Plain (Recall _ _ _), Plain (Recall _ _ _) | Plain (MRR _ _), Plain (MRR _ _) | Plain (MAP _ _), Plain (MAP _ _) | Plain (DCG _ _), Plain (DCG _ _)
  | Plain (NDCGfresh _ _ _), Plain (NDCGfresh _ _ _) | Plain (ERR _), Plain (ERR _) | Plain (Pfound _ _), Plain (Pfound _ _) | Plain (RBP _ _ _), Plain (RBP _ _ _)
  | Plain (RMSE _), Plain (RMSE _) | AnyMSE _, AnyMSE _ | AnyTau, AnyTau | AnyRho, AnyRho => True
  | _, _ => False
  end.
(** A name without the characters that introduce a cutoff or a threshold. *)
Definition simple (name : text) : Prop := ~ In "@"%char name /\ ~ In "["%char name.
