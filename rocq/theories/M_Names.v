(** Model of the __str__ methods of metrics/*.py: what is written in legends and tables.
    [shown] is "{}".format of a threshold. *)
From Coq Require Import Ascii String List ZArith Bool.
From Verif Require Import Base Num M_Dataset M_Metrics M_Text.
Import ListNotations.
Local Open Scope Z_scope.

Section Names.
Context {N : num}.
Variable shown : N -> text.

(** The fourteen classes.  ([Plain (NDCGfresh ...)] is NDCG: its cache does not matter here.) *)
Inductive any_metric : Type := Plain (m : @metric N) | AnyMSE (cutoff : option Z) | AnyTau | AnyRho.
(** The parameter name='...' of the constructors. *)
Definition default_name (m : any_metric) : text :=
  match m with
  | Plain (Precision _ _) => lit "P"            (* precision.py 24 *)
  | Plain (PrecisionMax _) => lit "P"           (* precision_max.py 23 *)
  | Plain (Recall _ _ _) => lit "R"             (* recall.py 24 *)
  | Plain (MRR _ _) => lit "MRR"                (* mrr.py 23 *)
  | Plain (MAP _ _) => lit "MAP"                (* map.py 22 *)
  | Plain (DCG _ _) => lit "DCG"                (* dcg.py 17 *)
  | Plain (NDCGfresh _ _ _) => lit "NDCG"       (* ndcg.py 21 *)
  | Plain (ERR _) => lit "ERR"                  (* err.py 20 *)
  | Plain (Pfound _ _) => lit "Pf"              (* pfound.py 26 *)
  | Plain (RBP _ _ _) => lit "RBP"              (* rbp.py 45 *)
  | Plain (RMSE _) => lit "RMSE"                (* rmse.py 18 *)
  | AnyMSE _ => lit "MSE"                       (* mse.py 18 *)
  | AnyTau => lit "K"                           (* kendall_tau.py 20 *)
  | AnyRho => lit "Rho"                         (* spearman_rho.py 19 *)
  end.
(** if self.cutoff is not None: s += "@{}".format(self.cutoff) *)
Definition at_cutoff (cutoff : option Z) : text := match cutoff with Some k => lit "@" ++ show_Z k | None => [] end.
(** if self.threshold != self._threshold: s += "[>{}]".format(self.threshold); _threshold = 1 *)
Definition above (thr : N) : text := if neqb thr none then [] else lit "[>" ++ shown thr ++ lit "]".
(** precision.py 99-105, precision_max.py 92-96, recall.py 110-116, mrr.py 110-116, map.py 113-117,
    dcg.py 101-105, ndcg.py 137-141, err.py 99-103, pfound.py 113-117, rbp.py 123-129, rmse.py 83-87,
    mse.py 93-97, kendall_tau.py 97-99, spearman_rho.py 78-80. *)
Definition str_of (name : text) (m : any_metric) : text :=
  match m with
  | Plain (Precision k t) | Plain (Recall _ k t) | Plain (MRR k t) | Plain (RBP k t _) => name ++ at_cutoff k ++ above t
  | Plain (PrecisionMax k) | Plain (MAP _ k) | Plain (DCG _ k) | Plain (NDCGfresh _ _ k) | Plain (ERR k) | Plain (Pfound k _) | Plain (RMSE k) | AnyMSE k => name ++ at_cutoff k
  | AnyTau | AnyRho => name
  end.
End Names.
