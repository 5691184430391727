(** Models of programs that work with doubles, and what the loaders make of them. *)
From Coq Require Import List ZArith Bool SpecFloat.
From Verif Require Import Base Num M_Text M_IEEE S_Ensemble S_Loaders.
Import ListNotations.
Local Open Scope Z_scope.

(** No comparison is changed by rounding both sides to float32: where the rounded feature equals the
    rounded threshold, the feature is not above the threshold. *)
Fixpoint undisturbed {A} (row : list IEEE64) (t : tree A IEEE64) : Prop :=
  match t with
  | Leaf _ _ => True
  | Node _ f thr l r =>
      let x := nth (Z.to_nat f) row nzero in
      (neqb (to_float32 x : IEEE32) (to_float32 thr) = true -> nleb x thr = true) /\ undisturbed row l /\ undisturbed row r
  end.
(** Only the nodes that the row visits. *)
Fixpoint undisturbed_path {A} (row : list IEEE64) (t : tree A IEEE64) : Prop :=
  match t with
  | Leaf _ _ => True
  | Node _ f thr l r =>
      let x := nth (Z.to_nat f) row nzero in
      (neqb (to_float32 x : IEEE32) (to_float32 thr) = true -> nleb x thr = true) /\
      undisturbed_path row (if nleb x thr then l else r)
  end.
(** A float32 as a double, and the doubles that are float32 values. *)
Definition widen (x : spec_float) : spec_float :=
  match x with S754_finite s m e => binary_round 53 1024 s m e | _ => x end.
Definition short (x : spec_float) : Prop := exists y, valid_binary 24 128 y = true /\ x = widen y.
(** The leaves that the original program reaches, weighted and added up in float32 by this library. *)
Definition rounded_score {A} (ws : list IEEE32) (ts : list (tree A IEEE64)) (row : list IEEE64) : IEEE32 :=
  fold_left (fun (y : IEEE32) p => nf32 (nadd y (nf32 (nmul (to_float32 (snd (exit_leaf row (snd p))) : IEEE32) (fst p))))) (combine ws ts) nzero.
(** Python's float() on the texts of a file, and the float32 cell its result is stored in. *)
Definition to_single (rd : text -> option IEEE64) (t : text) : option IEEE32 := option_map to_float32 (rd t).
Definition to_double (rd : text -> option IEEE64) (t : text) : IEEE64 := match rd t with Some d => d | None => nzero end.
Definition doubles {A} (rd : text -> option IEEE64) (ts : list (tree A text)) : list (tree unit IEEE64) :=
  map (convert (to_double rd) (to_double rd)) (map erase ts).
Definition reads_doubles (rd : text -> option IEEE64) : Prop := forall t d, rd t = Some d -> valid_binary 53 1024 d = true.
(** Rows of doubles, wide enough for the trees, whose comparisons survive the rounding. *)
Definition fit_rows {A} (ts : list (tree A IEEE64)) (X : list (list IEEE64)) : Prop :=
  forall row, In row X -> Forall (fun x => valid_binary 53 1024 x = true) row /\
    Forall (fun t => Forall (fun i => 0 <= i < Z.of_nat (length row)) (splits t) /\ undisturbed_path row t) ts.
Definition no_nan (row : list IEEE64) : Prop := ~ In (S754_nan : IEEE64) row.
(** LightGBM, missing type None: a missing value counts as 0. *)
Definition nan_to_zero (x : IEEE64) : IEEE64 := if is_nan x then S754_zero false else x.
