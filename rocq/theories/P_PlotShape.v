(** The picture of the average tree shape: C81. *)
From Coq Require Import List ZArith QArith Reals Lia Bool Permutation.
From Verif Require Import Base Lists Num M_Dataset M_Ensemble S_Ensemble L_Ensemble M_Topology S_Topology M_PlotShape S_PlotShape L_PlotShape.
Import ListNotations.
Local Open Scope Z_scope.
Ltac vmr := repeat first [split; [vm_compute; reflexivity|] | vm_compute; reflexivity].

(** C81 *)
Theorem C81_every_sector_shows_its_node : forall incl (e : ensemble RE) trees ws order max_level,
  laid_out e trees ws -> Forall parents_first trees -> Forall (fun t => (height t <= 63)%nat) trees -> trees <> [] ->
  Permutation order (zrange 0 (e_ntrees e)) -> 0 <= max_level ->
  exists m hs, topology incl e order = Ok (m, hs) /\
    let z := plot_shape (avg_tree_shape e m) max_level in
    exists levels sectors, 1 <= levels <= max_level + 1 /\ 128 <= sectors /\ 2 ^ levels <= sectors /\
      length z = Z.to_nat (sectors + 1) /\ Forall (fun r => length r = Z.to_nat (levels + 1)) z /\
      (forall l c t, 0 <= l <= max_level -> 0 <= c < 2 ^ l -> In t trees -> counted incl (Z.to_nat l) c t = true -> l < levels) /\
      (forall l i, 0 <= l < levels -> 0 <= i < sectors -> exists c, 0 <= c < 2 ^ l /\ in_arc sectors (2 ^ l) c i) /\
      (forall l c i, 0 <= l < levels -> 0 <= c < 2 ^ l -> 0 <= i < sectors -> in_arc sectors (2 ^ l) c i ->
        colour z i l = (IZR (how_many (counted incl (Z.to_nat l) c) trees) / INR (length trees))%R).
Proof. exact plot_shape_lemma. Qed.
Print Assumptions C81_every_sector_shows_its_node.

(** Two trees, of height 2 and 1: the right child of the root of the first has children. *)
Definition sex : ensemble QN :=
  mkEns (N:=QN) 2 8 [0; 5] [1%Q; (1#2)%Q]
    [2; 3; -1; -1; -1; 6; -1; -1] [1; 4; -1; -1; -1; 7; -1; -1]
    [10; 7; 5; 1; 2; 3; 4; 8]%Q [0; 2; -1; -1; -1; 1; -1; -1].
Definition sex_z (max_level : Z) : list (list QN) := match topology true sex [0; 1] with Ok (m, _) => plot_shape (avg_tree_shape sex m) max_level | Err _ => [] end.
Example C81_example :
  (length (sex_z 10), length (hd [] (sex_z 10)), length (hd [] (sex_z 1))) = (129, 4, 3)%nat /\
  map (fun i => (colour (sex_z 10) i 0, colour (sex_z 10) i 1, colour (sex_z 10) i 2)) [0; 63; 64; 95; 96; 127] =
  [(1, 1, 0); (1, 1, 0); (1, 1, (1#2)); (1, 1, (1#2)); (1, 1, (1#2)); (1, 1, (1#2))]%Q /\
  map (fun i => colour (sex_z 1) i 2) [64; 127] = [0; 0]%Q.
Proof. vmr. Qed.
Example C81_example_arc : in_arc 128 4 2 64 /\ in_arc 128 4 2 95 /\ ~ in_arc 128 4 2 96.
Proof. unfold in_arc. lia. Qed.
