(** Topological analysis: C46-C48, C64, C65. *)
From Coq Require Import List ZArith QArith Reals Lia Bool Permutation.
From Verif Require Import Base Lists Num M_Dataset M_Ensemble S_Ensemble L_Ensemble L_Ensemble2 M_Topology S_Topology
  L_Topology L_Topology2 L_Topology3.
Import ListNotations.
Local Open Scope Z_scope.
Ltac vmr := repeat first [split; [vm_compute; reflexivity|] | vm_compute; reflexivity].

(** Two trees, of height 2 and 1. *)
Definition tex : ensemble QN :=
  mkEns (N:=QN) 2 8 [0; 5] [1%Q; (1#2)%Q]
    [2; 3; -1; -1; -1; 6; -1; -1] [1; 4; -1; -1; -1; 7; -1; -1]
    [10; 7; 5; 1; 2; 3; 4; 8]%Q [0; 2; -1; -1; -1; 1; -1; -1].
Definition tex_ts : list (tree Z QN) :=
  [Node 0 0 (10)%Q (Leaf 2 (5)%Q) (Node 1 2 (7)%Q (Leaf 3 (1)%Q) (Leaf 4 (2)%Q));
   Node 5 1 (3)%Q (Leaf 6 (4)%Q) (Leaf 7 (8)%Q)].
Example tex_laid_out : laid_out tex tex_ts [1%Q; (1#2)%Q] /\ Forall parents_first tex_ts.
Proof.
  split; [|repeat constructor; cbn; lia].
  repeat (split; [reflexivity|]). split.
  - repeat (split; [reflexivity|]). repeat constructor.
  - split; [|repeat split; reflexivity]. cbn [consecutive tex_ts mark]. split; [reflexivity|]. split.
    + apply NoDup_Permutation.
      * cbn. repeat (apply NoDup_cons; [cbn; lia|]). apply NoDup_nil.
      * cbn. repeat (apply NoDup_cons; [cbn; lia|]). apply NoDup_nil.
      * intros x. vm_compute. tauto.
    + split; [reflexivity|]. split; [|exact I]. apply Permutation_refl.
Qed.

(** C46 *)
Theorem C46_topology_counts_positions : forall (N : Num.num) incl (e : ensemble N) ts ws order,
  laid_out e ts ws -> Forall parents_first ts -> Forall (fun t => (height t <= 63)%nat) ts -> ts <> [] ->
  Permutation order (zrange 0 (e_ntrees e)) ->
  exists m, topology incl e order = Ok (m, map (fun t => Z.of_nat (height t)) ts) /\
    forall d c, entry m (Z.of_nat d) c = if (0 <=? c) && (c <? 2 ^ Z.of_nat d) then how_many (counted incl d c) ts else 0.
Proof. exact (fun N incl e => @C46_lemma N incl e). Qed.
Print Assumptions C46_topology_counts_positions.
Example C46_example :
  topology true tex [1; 0] = Ok ([(0, 0, 2); (1, 0, 2); (1, 1, 2); (2, 2, 1); (2, 3, 1)], [2; 1]) /\
  topology false tex [0; 1] = Ok ([(0, 0, 2); (1, 1, 1)], [2; 1]) /\
  how_many (counted true 2 3) tex_ts = 1 /\ how_many (counted true 2 0) tex_ts = 0 /\ how_many (counted false 1 1) tex_ts = 1.
Proof. vmr. Qed.
(** A split stored before its parent is numbered too early. *)
Definition late : ensemble QN :=
  mkEns (N:=QN) 1 7 [0] [1%Q] [3; 5; -1; 1; -1; -1; -1] [4; 6; -1; 2; -1; -1; -1] [0; 0; 0; 0; 0; 0; 0]%Q [0; 0; -1; 0; -1; -1; -1].
Definition late_tree : tree Z QN :=
  Node 0 0 0%Q (Node 3 0 0%Q (Node 1 0 0%Q (Leaf 5 0%Q) (Leaf 6 0%Q)) (Leaf 2 0%Q)) (Leaf 4 0%Q).
Theorem C46_children_first_refuted : encodes late [late_tree] [1%Q] /\
  topology true late [0] = Ok ([(0, 0, 1); (1, 0, 2); (1, 1, 2); (2, 0, 1); (2, 1, 1)], [2]) /\ height late_tree = 3%nat.
Proof. split; [|vmr]. repeat (split; [reflexivity|]). repeat constructor. Qed.
(** Without leaves, a leaf stored before its parent is counted. *)
Theorem C46_leaf_before_parent_refuted :
  let e := mkEns (N:=QN) 1 5 [0] [1%Q] [3; -1; -1; 1; -1] [4; -1; -1; 2; -1] [0; 0; 0; 0; 0]%Q [0; -1; -1; 0; -1] in
  topology false e [0] = Ok ([(0, 0, 1); (1, 0, 1); (2, 0, 1); (2, 1, 1)], [2]).
Proof. vmr. Qed.
(** No tree at all: the first count is written outside the array. *)
Theorem C46_empty_model_refuted : topology true (mkEns (N:=QN) 0 0 [] [] [] [] [] []) [] = Err MemFault.
Proof. vmr. Qed.

(** C47 *)
Theorem C47_heights_agree : forall (N : Num.num) incl (e : ensemble N) ts ws order,
  laid_out e ts ws -> Forall parents_first ts -> Forall (fun t => (height t <= 63)%nat) ts -> ts <> [] ->
  Permutation order (zrange 0 (e_ntrees e)) ->
  exists m hs, topology incl e order = Ok (m, hs) /\ height_trees e = Ok hs /\ hs = map (fun t => Z.of_nat (height t)) ts.
Proof.
  intros N incl e ts ws order HL HP HH Hne Ho. destruct (C46_lemma incl e ts ws order HL HP HH Hne Ho) as [m [E _]].
  exists m, (map (fun t => Z.of_nat (height t)) ts). split; [exact E|]. split; [|reflexivity]. apply (C36_lemma e ts ws HL).
Qed.
Print Assumptions C47_heights_agree.
Example C47_example : height_trees tex = Ok [2; 1].
Proof. vmr. Qed.
(** A chain of [n] splits, each the left child of the previous one. *)
Definition chain (n : nat) : ensemble QN :=
  let z := Z.of_nat n in
  mkEns (N:=QN) 1 (2 * z + 1) [0] [1%Q]
    (flat_map (fun k => [2 * k + 2; -1]) (zrange 0 z) ++ [-1])
    (flat_map (fun k => [2 * k + 1; -1]) (zrange 0 z) ++ [-1])
    (repeat 0%Q (2 * n + 1)) (flat_map (fun k => [0; -1]) (zrange 0 z) ++ [-1]).
Example C47_height_63 :
  height_trees (chain 63) = Ok [63] /\
  (do r <- topology true (chain 63) [0]; Ok (snd r)) = Ok [63].
Proof. vmr. Qed.
(** At height 64 the numbers wrap. *)
Theorem C47_height_64_refuted :
  height_trees (chain 64) = Ok [64] /\
  (do r <- topology true (chain 64) [0]; Ok (snd r)) = Ok [0].
Proof. vmr. Qed.

(** C48 *)
Theorem C48_msb_is_log2 : forall v, 1 <= v < 2 ^ 63 -> 2 ^ msb v <= v < 2 ^ (msb v + 1).
Proof.
  intros v H. rewrite msb_log2 by exact H. apply Z.log2_spec. lia.
Qed.
Print Assumptions C48_msb_is_log2.
(** The sign bit does no harm. *)
Theorem C48_unsigned : forall v, 1 <= v < 2 ^ 64 -> 2 ^ msb v <= v < 2 ^ (msb v + 1).
Proof.
  intros v H. rewrite msb_u64 by exact H. apply Z.log2_spec. lia.
Qed.
Print Assumptions C48_unsigned.
Example C48_example : msb 1 = 0 /\ msb 5 = 2 /\ msb (2 ^ 40 + 17) = 40 /\ msb (2 ^ 63 - 1) = 62 /\ msb (2 ^ 63) = 63 /\ msb 0 = 0.
Proof. vmr. Qed.

(** C64 *)
Theorem C64_average_shape : forall incl (e : ensemble RE) ts ws order,
  laid_out e ts ws -> Forall parents_first ts -> Forall (fun t => (height t <= 63)%nat) ts -> ts <> [] ->
  Permutation order (zrange 0 (e_ntrees e)) ->
  exists m hs, topology incl e order = Ok (m, hs) /\
  NoDup (map fst (avg_tree_shape e m)) /\
  forall d c x, In ((Z.of_nat d, c), x) (avg_tree_shape e m) <->
    0 <= c < 2 ^ Z.of_nat d /\ 0 < how_many (counted incl d c) ts /\ x = (IZR (how_many (counted incl d c) ts) / INR (length ts))%R.
Proof. exact (@avg_lemma). Qed.
Print Assumptions C64_average_shape.
Example C64_example : (do r <- topology true tex [0; 1]; Ok (avg_tree_shape tex (fst r)))
  = Ok [(0, 0, 1%Q); (1, 0, 1%Q); (1, 1, 1%Q); (2, 2, (1#2)%Q); (2, 3, (1#2)%Q)].
Proof. vmr. Qed.

(** C65: the average is over the positions used by at least one tree. *)
Theorem C65_fullness_averages_used_positions : forall incl (e : ensemble RE) ts ws order,
  laid_out e ts ws -> Forall parents_first ts -> Forall (fun t => (height t <= 63)%nat) ts -> ts <> [] ->
  Permutation order (zrange 0 (e_ntrees e)) ->
  exists m hs, topology incl e order = Ok (m, hs) /\
  forall d c0, 0 <= c0 < 2 ^ Z.of_nat d -> 0 < how_many (counted incl d c0) ts ->
  exists used, NoDup used /\ (forall c, In c used <-> 0 <= c < 2 ^ Z.of_nat d /\ 0 < how_many (counted incl d c) ts) /\
    nth_error (fullness_per_level e m) d =
    Some (Some (IZR (zsum (map (fun c => how_many (counted incl d c) ts) used)) / INR (length used) / INR (length ts))%R).
Proof. exact (@fullness_lemma). Qed.
Print Assumptions C65_fullness_averages_used_positions.
Example C65_example : (do r <- topology true tex [0; 1]; Ok (fullness_per_level tex (fst r))) = Ok [Some 1%Q; Some 1%Q; Some (1#2)%Q].
Proof. vmr. Qed.
(** One tree with two of the eight nodes of level 3: reported as full. *)
Theorem C65_full_level_refuted :
  (do r <- topology true (chain 3) [0]; Ok (fullness_per_level (chain 3) (fst r))) = Ok [Some 1%Q; Some 1%Q; Some 1%Q; Some 1%Q] /\
  (do r <- topology true (chain 3) [0]; Ok (row_entries (fst r) 3)) = Ok [1; 1].
Proof. vmr. Qed.
