(** Specification vocabulary for the NDCG object. *)
From Coq Require Import List ZArith Bool Permutation.
From Verif Require Import Base Num M_Dataset M_Metrics M_NDCG.
Import ListNotations.

(** An argsort that returns all the positions, in some order: nothing is assumed about the order,
    so scores and labels may be NaN. *)
Definition permuting {N : num} (argsort : list N -> list nat) : Prop :=
  forall s, Permutation (argsort s) (seq 0 (length s)).

(** A data set object returned by the constructor. *)
Definition made {V} (d : dataset V) : Prop := exists nf X y ids, ds_init nf X y ids = Ok d.

(** NDCG of one query computed from scratch (the ideal DCG goes through float32). *)
Definition ndcg32 {N : num} (argsort : list N -> list nat) (norel : N) (g : gain_kind)
  (cutoff : option Z) (y s : list N) : res N :=
  do a <- dcg argsort g cutoff y s;
  do i <- dcg argsort g cutoff y y;
  Ok (if neqb (nf32 i) nzero then norel else ndiv a (nf32 i)).

(** Objects evaluated in a history. *)
Definition evaluated {N : num} (h : list (call (N:=N))) : list (obj (N:=N)) :=
  flat_map (fun c => match c with CallEval o _ => [o] | CallPerQuery _ _ => [] end) h.

(** [k] (evaluated earlier) cannot be confused with [o]: either they are the same object,
    or their hashes differ, or == answers and, if it answers True, labels and query
    boundaries agree. *)
Definition compatible {N : num} (digest : list (list N) -> list N -> list Z -> Z)
  (k o : obj (N:=N)) : Prop :=
  k = o \/
  (fst k <> fst o /\
   (ds_hash digest (snd k) = ds_hash digest (snd o) ->
    exists b, ds_eq neqb (snd k) (snd o) = Ok b /\
      (b = true -> ds_y (snd k) = ds_y (snd o) /\ ds_offs (snd k) = ds_offs (snd o)))).
