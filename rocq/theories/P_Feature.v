(** Feature importance: C49-C52, C66, C67. *)
From Coq Require Import List ZArith QArith Reals Lia Bool Permutation.
From Verif Require Import Base Lists Num M_Dataset M_Ensemble S_Ensemble L_Ensemble L_Ensemble2 M_Topology M_Feature S_Feature
  L_Feature L_Feature2 L_Feature3 L_Feature4 L_Feature5 L_Feature6.
Import ListNotations.
Local Open Scope Z_scope.
Ltac vmr := repeat first [split; [vm_compute; reflexivity|] | vm_compute; reflexivity].

(** Two trees and four instances with two features. *)
Definition fex : ensemble QN :=
  mkEns (N:=QN) 2 8 [0; 5] [1%Q; (1#2)%Q]
    [1; 2; -1; -1; -1; 6; -1; -1] [4; 3; -1; -1; -1; 7; -1; -1]
    [5; 2; 10; 20; 30; 2; 0; 0]%Q [0; 1; -1; -1; -1; 0; -1; -1].
Definition fex_ts : list (tree Z QN) :=
  [Node 0 0 (5)%Q (Node 1 1 (2)%Q (Leaf 2 (10)%Q) (Leaf 3 (20)%Q)) (Leaf 4 (30)%Q);
   Node 5 0 (2)%Q (Leaf 6 (0)%Q) (Leaf 7 (0)%Q)].
Definition fex_rows : list (list QN) := [[9; 0]; [1; 3]; [5; 2]; [2; 1]]%Q.
Definition fex_d : dataset QN := mkDataset fex_rows 2 [4; 3; 1; 0]%Q [1] [0; 4]%nat.
Definition qsum (l : list QN) : QN := fold_left (fun a b => Qred (a + b)) l 0%Q.
Example fex_laid_out : laid_out fex fex_ts [1%Q; (1#2)%Q] /\ Forall (visitable fex_rows 2) fex_ts /\ fits fex_rows 2.
Proof.
  split; [|split].
  - repeat (split; [reflexivity|]). split.
    + repeat (split; [reflexivity|]). repeat constructor.
    + split; [|repeat split; reflexivity]. cbn [consecutive fex_ts mark]. split; [reflexivity|]. split.
      * apply NoDup_Permutation.
        -- cbn. repeat (apply NoDup_cons; [cbn; lia|]). apply NoDup_nil.
        -- cbn. repeat (apply NoDup_cons; [cbn; lia|]). apply NoDup_nil.
        -- intros x. vm_compute. tauto.
      * split; [reflexivity|]. split; [|exact I]. apply Permutation_refl.
  - repeat constructor; cbn; try lia; intros; try discriminate; lia.
  - split; [discriminate|]. split; [repeat constructor|]. split; vm_compute; reflexivity.
Qed.

(** C49 *)
Theorem C49_partition : forall (N : Num.num) (red : list N -> N) (e : ensemble N) rows nf yt i f thr l r s A M B,
  fits rows nf -> length yt = length rows -> sized rows nf s -> represents e (Node i f thr l r) -> 0 <= f < Z.of_nat nf ->
  f_si s = A ++ M ++ B -> M <> [] -> NoDup M -> (forall j, In j M -> 0 <= j < Z.of_nat (length rows)) ->
  exists L R s1 pushed,
    visit red e (concat rows) (Z.of_nat nf) (Z.of_nat (length rows)) yt s
      (mkQ i (Z.of_nat (length A)) (Z.of_nat (length A) + Z.of_nat (length M) - 1)) = Ok (s1, pushed) /\
    f_si s1 = A ++ L ++ R ++ B /\ Permutation M (L ++ R) /\
    (forall j, In j L -> nleb (nth (Z.to_nat f) (nth (Z.to_nat j) rows []) nzero) thr = true) /\
    (forall j, In j R -> nleb (nth (Z.to_nat f) (nth (Z.to_nat j) rows []) nzero) thr = false) /\
    ((A <> [] \/ L <> []) -> pushed =
       (if is_split r && (2 <=? length R)%nat
        then [mkQ (mark r) (Z.of_nat (length A) + Z.of_nat (length L)) (Z.of_nat (length A) + Z.of_nat (length M) - 1)] else []) ++
       (if is_split l && (2 <=? length L)%nat
        then [mkQ (mark l) (Z.of_nat (length A)) (Z.of_nat (length A) + Z.of_nat (length L) - 1)] else [])).
Proof.
  intros N red e rows nf yt i f thr l r s A M B [_ [F1 [F2 F3]]] Hy Hs Hrep Hf HM Hne ND Hin.
  destruct (visit_ok red e rows nf yt F1 F2 F3 Hy i f thr l r s A M B Hrep Hf Hs HM Hne ND Hin) as [L [R [s1 [pl [V [P [HL [HR [_ [HS [Q _]]]]]]]]]]].
  eexists L, R, s1, _. split; [exact V|]. split; [exact HS|]. split; [exact P|]. split; [exact HL|]. split; [exact HR|].
  intros C. destruct (Q C) as [_ ->]. reflexivity.
Qed.
Print Assumptions C49_partition.
Definition si_of (r : res (fstate (N:=QN) * list qnode)) : option (list Z * list (Z * Z * Z)) :=
  match r with Ok (s, p) => Some (f_si s, map (fun q => (q_id q, q_start q, q_end q)) p) | Err _ => None end.
Example C49_example :
  si_of (visit qsum fex (concat fex_rows) 2 4 [4; 3; 1; 0]%Q (mkF (N:=QN) [0; 1; 2; 3] [2; 2; 2; 2]%Q [0; 0]%Q [0; 0]) (mkQ 0 0 3)) = Some ([3; 1; 2; 0], [(1, 0, 2)]) /\
  si_of (visit qsum fex (concat fex_rows) 2 4 [4; 3; 1; 0]%Q (mkF (N:=QN) [3; 1; 2; 0] [2; 2; 2; 2]%Q [0; 0]%Q [0; 0]) (mkQ 1 0 2)) = Some ([3; 2; 1; 0], []).
Proof. vmr. Qed.

(** C50 *)
Local Open Scope R_scope.
Theorem C50_importance_is_gain : forall (red : list RE -> RE) (e : ensemble RE) ts ws (d : dataset RE),
  (forall l, red l = Rtotal l) ->
  laid_out e ts ws -> fits (ds_X d) (ds_nf d) -> length (ds_y d) = length (ds_X d) -> Forall (visitable (ds_X d) (ds_nf d)) ts ->
  exists imp cnt, eff_importance red e d = Ok (imp, cnt) /\ length imp = ds_nf d /\
    let all := zrange 0 (Z.of_nat (length (ds_X d))) in
    let targets := residuals (ds_X d) all ws ts (fun i => nth (Z.to_nat i) (ds_y d) 0) in
    (forall f, (0 <= f < Z.of_nat (ds_nf d))%Z ->
       nth (Z.to_nat f) imp 0 = Rtotal (map (fun p => gains_of (snd p) f (visited (ds_X d) (fst p) all)) (combine ts targets)) / INR (length (ds_X d)) /\
       0 <= nth (Z.to_nat f) imp 0) /\
    Rtotal imp = Rtotal (map (fun p => error_drop d (fst p) (snd p)) (combine ts targets)) / INR (length (ds_X d)).
Proof. exact C50_lemma. Qed.
Print Assumptions C50_importance_is_gain.
Theorem C50_gain_nonneg : forall (y : Z -> R) f L R, 0 <= gain y (f, L, R).
Proof. exact (fun y f L R => gain_nonneg y (f, L, R)). Qed.
Print Assumptions C50_gain_nonneg.
Local Open Scope Z_scope.
Example C50_example :
  eff_importance qsum fex fex_d = Ok ([(67#48)%Q; (25#24)%Q], [2; 1]) /\ visited fex_rows (hd (Leaf 0 0%Q) fex_ts) (zrange 0 4) = [(0, [1; 2; 3], [0]); (1, [2; 3], [1])].
Proof. vmr. Qed.
(** Every instance goes right: the prediction becomes 0, not the mean. *)
Definition right_e : ensemble QN := mkEns (N:=QN) 1 3 [0] [1%Q] [1; -1; -1] [2; -1; -1] [0; 7; 8]%Q [0; -1; -1].
Theorem C50_all_right_refuted : exists (e : ensemble QN) (d : dataset QN) imp cnt,
  eff_importance qsum e d = Ok (imp, cnt) /\ nltb (n:=QN) (nth 0 imp 0%Q) 0%Q = true.
Proof. exists right_e, (mkDataset [[1%Q]; [1%Q]] 1 [1%Q; 1%Q] [1] [0; 2]%nat), [(-1)%Q], [1]. vmr. Qed.
Print Assumptions C50_all_right_refuted.

(** C51 *)
Theorem C51_counts_are_visits : forall (N : Num.num) (red : list N -> N) e ts ws (d : dataset N),
  laid_out e ts ws -> fits (ds_X d) (ds_nf d) -> length (ds_y d) = length (ds_X d) -> Forall (visitable (ds_X d) (ds_nf d)) ts ->
  exists imp cnt, eff_importance red e d = Ok (imp, cnt) /\ length imp = ds_nf d /\ length cnt = ds_nf d /\
    (forall f, 0 <= f < Z.of_nat (ds_nf d) -> nth (Z.to_nat f) cnt 0 = (fold_right Z.add 0 (map (fun t => visits_of f (visited (ds_X d) t (zrange 0 (Z.of_nat (length (ds_X d)))))) ts)) mod 2 ^ 16) /\
    (all_visits d ts < 2 ^ 16 -> fold_right Z.add 0 cnt = all_visits d ts).
Proof. exact @C51_lemma. Qed.
Print Assumptions C51_counts_are_visits.
Theorem C51_single_leaf_faults : forall (N : Num.num) (red : list N -> N) (e : ensemble N) X y nf n k imp cnt yp i v r,
  represents e (Leaf i v) -> mem_get (e_root e) k = Ok i -> importance_tree red e X y nf n k imp cnt yp <> Ok r.
Proof. exact @leaf_faults. Qed.
Print Assumptions C51_single_leaf_faults.
Example C51_example : all_visits fex_d fex_ts = 3 /\
  eff_importance qsum (mkEns (N:=QN) 1 1 [0] [1%Q] [-1] [-1] [3%Q] [-1]) fex_d = Err MemFault.
Proof. vmr. Qed.

(** C52 *)
Theorem C52_no_fault : forall (N : Num.num) (red : list N -> N) e ts ws rows nf k t w y yp imp cnt,
  laid_out e ts ws -> nth_error ts k = Some t -> nth_error ws k = Some w -> fits rows nf -> length y = length rows -> length yp = length rows ->
  length imp = nf -> length cnt = nf -> visitable rows nf t ->
  exists r, importance_tree (N:=N) red e (concat rows) y (Z.of_nat nf) (Z.of_nat (length rows)) (Z.of_nat k) imp cnt yp = Ok r.
Proof.
  intros N red e ts ws rows nf k t w y yp imp cnt H1 H2 H3 H4 H5 H6 H7 H8 H9.
  destruct (tree_ok red e ts ws rows nf k t w y yp imp cnt H1 H2 H3 H4 H5 H6 H7 H8 H9) as [s [E _]]. eexists. exact E.
Qed.
Print Assumptions C52_no_fault.
Theorem C52_all_right_pushes_everything : forall (N : Num.num) (red : list N -> N) (e : ensemble N) rows nf yt i f thr l r s M B,
  fits rows nf -> length yt = length rows -> sized rows nf s -> represents e (Node i f thr l r) -> 0 <= f < Z.of_nat nf ->
  f_si s = M ++ B -> M <> [] -> NoDup M -> (forall j, In j M -> 0 <= j < Z.of_nat (length rows)) ->
  is_split l = true -> lefts rows f thr M = [] ->
  exists s1 pushed, visit red e (concat rows) (Z.of_nat nf) (Z.of_nat (length rows)) yt s (mkQ i 0 (Z.of_nat (length M) - 1)) = Ok (s1, pushed) /\
    In (mkQ (mark l) 0 (2 ^ 32 - 1)) pushed.
Proof.
  intros N red e rows nf yt i f thr l r s M B [_ [F1 [F2 F3]]] Hy Hs Hrep Hf HM Hne ND Hin Hsp HL0.
  destruct (visit_ok red e rows nf yt F1 F2 F3 Hy i f thr l r s [] M B Hrep Hf Hs HM Hne ND Hin) as [L [R [s1 [pl [V [P [HL [HR [_ [_ [_ Q]]]]]]]]]]].
  assert (E : L = []).
  { destruct (split_perm rows f thr M L R P HL HR) as [PL _]. rewrite HL0 in PL. apply (Permutation_nil PL). }
  destruct (Q eq_refl E) as [_ ->]. rewrite Hsp in V. eexists s1, _. split; [exact V|]. apply in_or_app. right. left. reflexivity.
Qed.
Print Assumptions C52_all_right_pushes_everything.
Theorem C52_pushed_segment_faults : forall (N : Num.num) (red : list N -> N) (e : ensemble N) X nf n yt i fuel s queue,
  Z.of_nat (length (f_si s)) < 2 ^ 32 - 1 -> In (mkQ i 0 (2 ^ 32 - 1)) queue -> forall s', visit_all red fuel e X nf n yt s queue <> Ok s'.
Proof. exact @queued_faults. Qed.
Print Assumptions C52_pushed_segment_faults.
Theorem C52_root_all_right_faults : forall (N : Num.num) (red : list N -> N) (e : ensemble N) ts ws rows nf k i f thr l r w y yp imp cnt res,
  laid_out e ts ws -> nth_error ts k = Some (Node i f thr l r) -> nth_error ws k = Some w ->
  fits rows nf -> length y = length rows -> length yp = length rows -> length imp = nf -> length cnt = nf -> 0 <= f < Z.of_nat nf ->
  is_split l = true -> lefts rows f thr (zrange 0 (Z.of_nat (length rows))) = [] ->
  importance_tree red e (concat rows) y (Z.of_nat nf) (Z.of_nat (length rows)) (Z.of_nat k) imp cnt yp <> Ok res.
Proof. exact @all_right_faults. Qed.
Print Assumptions C52_root_all_right_faults.
Theorem C52_no_instance_faults : forall (N : Num.num) (red : list N -> N) (e : ensemble N) X y nf k imp cnt yp r,
  importance_tree red e X y nf 0 k imp cnt yp <> Ok r.
Proof. exact @empty_faults. Qed.
Print Assumptions C52_no_instance_faults.
Theorem C52_index_wraps_refuted : exists nf inst f, 0 <= inst < 2 ^ 31 /\ 0 <= f < nf /\ x_index nf inst f <> inst * nf + f.
Proof. exists 65536, 65536, 0. repeat split; try discriminate. Qed.
Print Assumptions C52_index_wraps_refuted.
Example C52_example :
  (exists r, eff_importance qsum fex fex_d = Ok r) /\
  eff_importance qsum fex (mkDataset [[9; 0]; [8; 3]]%Q 2 [4; 3]%Q [1] [0; 2]%nat) = Err MemFault.
Proof. split; [eexists; vm_compute; reflexivity|vmr]. Qed.

(** C66 *)
Theorem C66_rmse_first_only : forall (N : Num.num) (red : list N -> N) e d imp cnt a,
  eff_importance red e d = Ok (a :: imp, cnt) -> feature_importance red e d true false = Ok (nf32 (nsqrt a) :: imp, cnt).
Proof. exact @rmse_lemma. Qed.
Print Assumptions C66_rmse_first_only.
Definition rmse_e : ensemble QN := mkEns (N:=QN) 1 3 [0] [1%Q] [1; -1; -1] [2; -1; -1] [0; 7; 8]%Q [1; -1; -1].
Definition rmse_d : dataset QN := mkDataset [[5; 0]; [5; 1]]%Q 2 [0; 4]%Q [1] [0; 2]%nat.
Theorem C66_rmse_all_refuted : exists (e : ensemble QN) (d : dataset QN) imp cnt imp',
  eff_importance qsum e d = Ok (imp, cnt) /\ feature_importance qsum e d true false = Ok (imp', cnt) /\ imp' <> map (nsqrt (n:=QN)) imp.
Proof. exists rmse_e, rmse_d, [0; 4]%Q, [0; 1], [0; 4]%Q. split; [vmr|]. split; [vmr|]. discriminate. Qed.
Print Assumptions C66_rmse_all_refuted.
Example C66_example :
  feature_importance qsum (mkEns (N:=QN) 1 3 [0] [1%Q] [1; -1; -1] [2; -1; -1] [0; 7; 8]%Q [0; -1; -1]) (mkDataset [[0; 0]; [1; 1]]%Q 2 [0; 4]%Q [1] [0; 2]%nat) true false = Ok ([2; 0]%Q, [1; 0]).
Proof. vmr. Qed.

(** C67 *)
Theorem C67_normalised_by_the_largest : forall (red : list RE -> RE) e d imp cnt,
  eff_importance red e d = Ok (imp, cnt) -> (forall v, In v imp -> 0 <= v)%R -> (exists v, In v imp /\ 0 < v)%R ->
  exists m, In m imp /\ (0 < m)%R /\ (forall v, In v imp -> v <= m)%R /\
    feature_importance red e d false true = Ok (map (fun v => v / m)%R imp, cnt).
Proof. exact normalize_lemma. Qed.
Print Assumptions C67_normalised_by_the_largest.
Example C67_example : feature_importance qsum fex fex_d false true = Ok ([1; (50#67)]%Q, [2; 1]).
Proof. vmr. Qed.
