(** Models that hold the same trees, wherever their nodes are stored. *)
From Coq Require Import List ZArith Bool.
From Verif Require Import Base Num M_Dataset S_Dataset M_NDCG M_Ensemble S_Ensemble.
Import ListNotations.
Local Open Scope Z_scope.

Section Twins.
Context {N : num}.

(** [e] holds the trees [shapes] with weights [ws]. *)
Definition holds (e : ensemble N) (shapes : list (tree unit N)) (ws : list N) : Prop :=
  exists ts, laid_out e ts ws /\ map erase ts = shapes.
Definition same_trees (e e' : ensemble N) : Prop := exists shapes ws, holds e shapes ws /\ holds e' shapes ws /\ Forall (fun t => Forall (fun f => 0 <= f) (splits t)) shapes.

(** Cached scores that agree, except for the numbers of the leaves. *)
Definition same_scorer (s s' : scorer N) : Prop :=
  sc_y s = sc_y s' /\ sc_partial s = sc_partial s' /\ is_some (sc_leaves s) = is_some (sc_leaves s').
Definition twins (m m' : model N) : Prop :=
  same_trees (m_ens m) (m_ens m') /\ m_lr m = m_lr m' /\ m_base m = m_base m' /\
  Forall2 (fun p p' => fst p = fst p' /\ same_scorer (snd p) (snd p')) (m_cache m) (m_cache m').

(** Answers that agree, except for the numbers of the leaves. *)
Definition same_answer (a a' : answer (N:=N)) : Prop :=
  match a, a' with
  | Basic y, Basic y' => y = y'
  | Detailed y p _, Detailed y' p' _ => y = y' /\ p = p'
  | _, _ => False
  end.
End Twins.

(** The same exception, or results in relation. *)
Definition both {A B} (R : A -> B -> Prop) (r : res A) (r' : res B) : Prop :=
  match r, r' with Ok a, Ok b => R a b | Err e, Err e' => e = e' | _, _ => False end.
(** The same table, and models that are still twins. *)
Definition same_table {N : num} {A} (r r' : res (list (model N) * A)) : Prop :=
  both (fun p p' => Forall2 twins (fst p) (fst p') /\ snd p = snd p') r r'.
