(** Schedules of the parallel loops of the analyses: C84. *)
From Coq Require Import List ZArith QArith Reals Lia Bool Permutation.
From Verif Require Import Base Lists Num M_Dataset M_Ensemble S_Ensemble M_Topology S_Topology M_Feature M_Schedule S_Schedule
  L_Schedule L_Schedule2 L_Schedule3 P_Topology P_Ensemble.
Import ListNotations.
Local Open Scope Z_scope.

(** C84 *)
Theorem C84_disjoint_iterations : forall (A V R : Type) (eqA : A -> A -> bool), (forall a b, eqA a b = true <-> a = b) ->
  forall (own : nat -> A -> Prop) (m0 : A -> V) (its : list (prog R)) c m rs,
  disjoint_iterations own its -> M_Schedule.steps eqA (m0, its) c -> S_Schedule.finished c m rs ->
  (forall i p a, nth_error its i = Some p -> own i a -> m a = fst (alone eqA p m0) a) /\
  (forall a, (forall i, (i < length its)%nat -> ~ own i a) -> m a = m0 a) /\
  map Ok rs = map (fun p => snd (alone eqA p m0)) its.
Proof. exact (fun A V R eqA H own => @any_schedule A V eqA H R own). Qed.
Print Assumptions C84_disjoint_iterations.

Theorem C84_every_schedule_ends : forall (A V R : Type) (eqA : A -> A -> bool), (forall a b, eqA a b = true <-> a = b) ->
  forall (own : nat -> A -> Prop) (m0 : A -> V) (its : list (prog R)) c,
  disjoint_iterations own its -> (forall p, In p its -> exists r, snd (alone eqA p m0) = Ok r) ->
  M_Schedule.steps eqA (m0, its) c ->
  Acc (fun c' c => M_Schedule.step eqA c c') c /\ ((exists c', M_Schedule.step eqA c c') \/ exists m rs, S_Schedule.finished c m rs).
Proof. intros A V R eqA H own m0 its c D F S. split; [apply step_ends|exact (goes_on eqA H own m0 its c D F S)]. Qed.
Print Assumptions C84_every_schedule_ends.

Theorem C84_topology_any_schedule : forall (N : num) incl (e : ensemble N) ts ws order,
  laid_out e ts ws -> Forall parents_first ts -> Forall (fun t => (height t <= 63)%nat) ts ->
  Permutation order (zrange 0 (e_ntrees e)) ->
  forall c m rs, M_Schedule.steps tcell_eqb (fun _ => 0, map (tree_prog incl e) (zrange 0 (e_ntrees e))) c -> S_Schedule.finished c m rs ->
  all_indices incl e order = Ok (map (fun i => m (NodeC i)) (zrange 0 (e_nnodes e)), map (fun i => m (HeightC i)) (zrange 0 (e_ntrees e))).
Proof. exact (@tree_loop_any). Qed.
Print Assumptions C84_topology_any_schedule.
Theorem C84_topology_ends : forall (N : num) incl (e : ensemble N) ts ws,
  laid_out e ts ws -> Forall parents_first ts -> Forall (fun t => (height t <= 63)%nat) ts ->
  forall c, M_Schedule.steps tcell_eqb (fun _ => 0, map (tree_prog incl e) (zrange 0 (e_ntrees e))) c ->
    Acc (fun c' c => M_Schedule.step tcell_eqb c c') c /\ ((exists c', M_Schedule.step tcell_eqb c c') \/ exists m rs, S_Schedule.finished c m rs).
Proof. exact (@tree_loop_ends). Qed.
Print Assumptions C84_topology_ends.
Theorem C84_coordinates_any_schedule : forall data m0 c m rs,
  M_Schedule.steps tcell_eqb (m0, map (coordinate_prog data) (zrange 0 (Z.of_nat (length data)))) c -> S_Schedule.finished c m rs ->
  map (fun i => (m (RowC i), m (ColC i))) (zrange 0 (Z.of_nat (length data))) = map (fun x => fst (coordinates (x, 0))) data /\
  forall i, m (NodeC i) = m0 (NodeC i) /\ m (HeightC i) = m0 (HeightC i).
Proof. exact coordinate_any. Qed.
Print Assumptions C84_coordinates_any_schedule.

Theorem C84_residuals_any_schedule : forall (N : num) (y : list N) n m0 c m rs, Z.of_nat (length y) = n ->
  M_Schedule.steps fcell_eqb (m0, map (residual_prog y n) (zrange 0 n)) c -> S_Schedule.finished c m rs ->
  mapM (fun i => do a <- mem_get y i; do b <- mem_get (map (fun i => m0 (PredC i)) (zrange 0 n)) i; Ok (nf32 (nsub a b))) (zrange 0 n) = Ok rs /\
  map (fun i => m (TargetC i)) (zrange 0 n) = rs /\ forall i, m (PredC i) = m0 (PredC i).
Proof. exact (@residual_any). Qed.
Print Assumptions C84_residuals_any_schedule.
Theorem C84_fill_any_schedule : forall (N : num) (mean : N) n m0 c m rs,
  M_Schedule.steps fcell_eqb (m0, map (fill_prog mean n) (zrange 0 n)) c -> S_Schedule.finished c m rs ->
  map (fun i => m (PredTreeC i)) (zrange 0 n) = repeat mean (Z.to_nat n) /\
  forall i, m (TargetC i) = m0 (TargetC i) /\ m (PredC i) = m0 (PredC i) /\ m (ImpC i) = m0 (ImpC i).
Proof. exact (@fill_any). Qed.
Print Assumptions C84_fill_any_schedule.
Theorem C84_zero_any_schedule : forall (N : num) nf m0 c m rs,
  M_Schedule.steps fcell_eqb (m0, map (zero_prog (N:=N) nf) (zrange 0 nf)) c -> S_Schedule.finished c m rs ->
  map (fun i => m (ImpC i)) (zrange 0 nf) = repeat nzero (Z.to_nat nf).
Proof. exact (@zero_any). Qed.
Print Assumptions C84_zero_any_schedule.
Theorem C84_update_any_schedule : forall (N : num) (w : N) n m0 c m rs,
  M_Schedule.steps fcell_eqb (m0, map (update_prog w n) (zrange 0 n)) c -> S_Schedule.finished c m rs ->
  map (fun i => m (PredTreeC i)) (zrange 0 n) = map (fun v => nf32 (nmul v w)) (map (fun i => m0 (PredTreeC i)) (zrange 0 n)) /\
  mapM (fun i => do a <- mem_get (map (fun i => m0 (PredC i)) (zrange 0 n)) i; do b <- mem_get (map (fun i => m (PredTreeC i)) (zrange 0 n)) i;
                 Ok (nf32 (nadd a b))) (zrange 0 n) = Ok (map (fun i => m (PredC i)) (zrange 0 n)).
Proof. exact (@update_any). Qed.
Print Assumptions C84_update_any_schedule.
Theorem C84_gain_any_schedule : forall (N : num) (P S B : list Z) (yt : list N) n end_ ml mr m0 c m rs,
  let si := P ++ S ++ B in
  let first := Z.of_nat (length P) in
  let last := Z.of_nat (length P) + Z.of_nat (length S) - 1 in
  0 <= last < 2 ^ 32 - 1 -> NoDup S -> (forall i, In i S -> 0 <= i < n) -> Z.of_nat (length yt) = n ->
  M_Schedule.steps fcell_eqb (m0, map (gain_prog si yt n end_ ml mr) (zrange first (last + 1))) c -> S_Schedule.finished c m rs ->
  gain_loop (Datatypes.S (length si)) si yt last end_ ml mr first (map (fun i => m0 (PredTreeC i)) (zrange 0 n)) [] =
    Ok (map (fun i => m (PredTreeC i)) (zrange 0 n), rs).
Proof. exact (@gain_any). Qed.
Print Assumptions C84_gain_any_schedule.
Theorem C84_gain_ends : forall (N : num) (P S B : list Z) (yt : list N) n end_ ml mr m0 c,
  let si := P ++ S ++ B in
  let first := Z.of_nat (length P) in
  let last := Z.of_nat (length P) + Z.of_nat (length S) - 1 in
  NoDup S -> (forall i, In i S -> 0 <= i < n) -> Z.of_nat (length yt) = n ->
  M_Schedule.steps fcell_eqb (m0, map (gain_prog si yt n end_ ml mr) (zrange first (last + 1))) c ->
  Acc (fun c' c => M_Schedule.step fcell_eqb c c') c /\ ((exists c', M_Schedule.step fcell_eqb c c') \/ exists m rs, S_Schedule.finished c m rs).
Proof. exact (@gain_ends). Qed.
Print Assumptions C84_gain_ends.
Theorem C84_reduction : forall (l : list RE) x, summed (N:=RE) l x -> x = Rtotal l.
Proof. exact summed_total. Qed.
Print Assumptions C84_reduction.

(** Two trees, their iterations interleaved step by step. *)
Example C84_example : exists m, 
  M_Schedule.steps tcell_eqb (fun _ => 0, map (tree_prog true tex) (zrange 0 2)) (m, map Ret [tt; tt]) /\
  map (fun i => m (NodeC i)) (zrange 0 8) = [0; 2; 1; 5; 6; 0; 1; 2] /\ map (fun i => m (HeightC i)) (zrange 0 2) = [2; 1].
Proof.
  set (c := play tcell_eqb [1; 0; 1; 0; 0; 1; 0; 0; 1; 0; 0]%nat (fun _ => 0, map (tree_prog true tex) (zrange 0 2))).
  exists (fst c). split.
  - apply play_reaches. vm_compute. reflexivity.
  - vm_compute. auto.
Qed.
Example C84_gain_example : exists m,
  M_Schedule.steps fcell_eqb (fun _ => 2%Q, map (gain_prog (N:=QN) [3; 1; 2; 0] [4; 3; 1; 0]%Q 4 2 (4#3)%Q 4%Q) (zrange 0 4))
    (m, map Ret [(20#9)%Q; (-16#9)%Q; (8#9)%Q; 4%Q]) /\
  map (fun i => m (PredTreeC i)) (zrange 0 4) = [4; 4#3; 4#3; 4#3]%Q.
Proof.
  set (c := play fcell_eqb [3; 0; 3; 1; 2; 1; 2; 0; 0; 1; 2; 3]%nat
              (fun _ => 2%Q, map (gain_prog (N:=QN) [3; 1; 2; 0] [4; 3; 1; 0]%Q 4 2 (4#3)%Q 4%Q) (zrange 0 4))).
  exists (fst c). split.
  - apply play_reaches. vm_compute. reflexivity.
  - vm_compute. reflexivity.
Qed.
(** Trees that are not stored one after the other share cells: here a child of tree 0 is the root of tree 1. *)
Definition shared_e : ensemble QN :=
  mkEns (N:=QN) 2 5 [0; 2] [1%Q; 1%Q] [1; -1; 3; -1; -1] [2; -1; 4; -1; -1] [0; 0; 0; 0; 0]%Q [0; -1; 0; -1; -1].
Theorem C84_shared_nodes_refuted : exists m1 m2,
  M_Schedule.steps tcell_eqb (fun _ => 0, map (tree_prog true shared_e) (zrange 0 2)) (m1, map Ret [tt; tt]) /\
  M_Schedule.steps tcell_eqb (fun _ => 0, map (tree_prog true shared_e) (zrange 0 2)) (m2, map Ret [tt; tt]) /\
  map (fun i => m1 (NodeC i)) (zrange 0 5) = [0; 1; 2; 5; 6] /\
  map (fun i => m2 (NodeC i)) (zrange 0 5) = [0; 1; 2; 1; 2].
Proof.
  set (c0 := (fun _ : tcell => 0, map (tree_prog true shared_e) (zrange 0 2))).
  exists (fst (play tcell_eqb [0; 0; 0; 0; 1; 1; 1; 1]%nat c0)), (fst (play tcell_eqb [1; 1; 1; 1; 0; 0; 0; 0]%nat c0)).
  split; [|split; [|vm_compute; auto]].
  - apply play_reaches. vm_compute. reflexivity.
  - apply play_reaches. vm_compute. reflexivity.
Qed.
Print Assumptions C84_shared_nodes_refuted.
(** In float32 the result of a reduction depends on the grouping. *)
Theorem C84_float_reduction_refuted :
  summed (N:=QF) [16777216; 1; 1]%Q 16777216%Q /\ summed (N:=QF) [16777216; 1; 1]%Q 16777218%Q.
Proof.
  split.
  - assert (E : 16777216%Q = nf32 (n:=QF) (nadd (n:=QF) (nf32 (n:=QF) (nadd (n:=QF) 16777216%Q 1%Q)) 1%Q)) by (vm_compute; reflexivity).
    rewrite E at 2. apply (summed_add (N:=QF) [16777216; 1]%Q [1]%Q); [|apply (summed_one (N:=QF))].
    apply (summed_add (N:=QF) [16777216]%Q [1]%Q); apply (summed_one (N:=QF)).
  - assert (E : 16777218%Q = nf32 (n:=QF) (nadd (n:=QF) 16777216%Q (nf32 (n:=QF) (nadd (n:=QF) 1%Q 1%Q)))) by (vm_compute; reflexivity).
    rewrite E. apply (summed_add (N:=QF) [16777216]%Q [1; 1]%Q); [apply (summed_one (N:=QF))|].
    apply (summed_add (N:=QF) [1]%Q [1]%Q); apply (summed_one (N:=QF)).
Qed.
Print Assumptions C84_float_reduction_refuted.
