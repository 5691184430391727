(** LightGBM files that end inside the block of a tree: specification. *)
From Coq Require Import Ascii String List ZArith.
From Verif Require Import Base Num M_Text M_Ensemble S_Ensemble S_Loaders.
Import ListNotations.
Local Open Scope Z_scope.

(** The complete blocks of [ps], then the first [j] of the eight lines of one more tree, among lines
    with other information. *)
Definition cut_file {N : num} (rd : text -> option N) (ps : list (arrays * tree Z text)) (p : arrays) (j : nat) (ls : list text) : Prop :=
  among (lgbm_other rd) (lgbm_blocks 0 (map fst ps) ++ firstn j (lgbm_block (Z.of_nat (length ps)) p)) ls.
