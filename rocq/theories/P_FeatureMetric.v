(** Feature importance with an arbitrary metric: C75, C76. *)
From Coq Require Import List ZArith QArith Reals Lia Bool Permutation.
From Verif Require Import Base Lists Num M_Dataset S_Dataset M_Ensemble S_Ensemble M_Metrics S_Metrics M_Effectiveness M_Feature S_Feature
  M_FeatureMetric S_FeatureMetric L_FeatureMetric3 L_FeatureMetric5.
Import ListNotations.
Local Open Scope Z_scope.
Ltac vmr := repeat first [split; [vm_compute; reflexivity|] | vm_compute; reflexivity].

(** C75 *)
Theorem C75_importance_is_metric_change : forall (N : Num.num) (sum : list N -> N) (e : ensemble N) ts ws (d : dataset N) (metric : evaluator (N:=N)) (value : list N -> N),
  laid_out e ts ws -> decides N -> length (ds_y d) = length (ds_X d) -> Forall (fun r => length r = ds_nf d) (ds_X d) ->
  (forall s, length s = length (ds_X d) -> exists v, metric d s = Ok (value s, v)) ->
  Forall (fun t => is_split t = true /\ Forall (fun f => 0 <= f < Z.of_nat (ds_nf d)) (splits t)) ts ->
  exists imp cnt, metric_importance sum e d metric false = Ok (imp, cnt) /\ length imp = ds_nf d /\ length cnt = ds_nf d /\
    forall f, 0 <= f < Z.of_nat (ds_nf d) ->
      nth (Z.to_nat f) imp nzero = credited f (all_changes sum (ds_X d) value (fun i => nth (Z.to_nat i) (ds_y d) nzero) ws ts (fun _ => nzero)) /\
      nth (Z.to_nat f) cnt 0 = uses f ts mod 2 ^ 16.
Proof. exact @metric_importance_ok. Qed.
Print Assumptions C75_importance_is_metric_change.
Theorem C75_normalized : forall (N : Num.num) (sum : list N -> N) e d metric imp cnt, metric_importance sum e d metric false = Ok (imp, cnt) ->
  metric_importance sum e d metric true = do m <- nmax imp; Ok (map (fun a => nf32 (ndiv a m)) imp, cnt).
Proof. exact @normalize_any. Qed.
Print Assumptions C75_normalized.
Theorem C75_normalizing_losses_reverses : forall (sum : list RE -> RE) e d metric imp cnt,
  metric_importance sum e d metric false = Ok (imp, cnt) -> imp <> [] -> (forall v, In v imp -> (v < 0)%R) ->
  exists imp', metric_importance sum e d metric true = Ok (imp', cnt) /\ length imp' = length imp /\
    forall f g, (f < length imp)%nat -> (g < length imp)%nat -> (nth f imp 0 < nth g imp 0)%R -> (0 < nth g imp' 0 < nth f imp' 0)%R.
Proof. exact normalize_reverses. Qed.
Print Assumptions C75_normalizing_losses_reverses.

(** Two trees and four instances with two features. *)
Definition mex : ensemble QN :=
  mkEns (N:=QN) 2 8 [0; 5] [1%Q; (1#2)%Q]
    [1; 2; -1; -1; -1; 6; -1; -1] [4; 3; -1; -1; -1; 7; -1; -1]
    [5; 2; 10; 20; 30; 2; 0; 0]%Q [0; 1; -1; -1; -1; 0; -1; -1].
Definition mex_ts : list (tree Z QN) :=
  [Node 0 0 (5)%Q (Node 1 1 (2)%Q (Leaf 2 (10)%Q) (Leaf 3 (20)%Q)) (Leaf 4 (30)%Q);
   Node 5 0 (2)%Q (Leaf 6 (0)%Q) (Leaf 7 (0)%Q)].
Definition mex_rows : list (list QN) := [[9; 0]; [1; 3]; [5; 2]; [2; 1]]%Q.
Definition mex_d : dataset QN := mkDataset mex_rows 2 [4; 3; 1; 0]%Q [0] [0; 4]%nat.
Definition qsum (l : list QN) : QN := fold_left (fun a b => Qred (a + b)) l 0%Q.
Definition prec2 : evaluator (N:=QN) := metric_eval (N:=QN) (eval_per_query stable_argsort (Precision (N:=QN) (Some 2) 2%Q)).
Definition shown (r : res (list QN * list Z)) : option (list Q * list Z) := match r with Ok p => Some (map Qred (fst p), snd p) | Err _ => None end.
Definition metric_value (m : evaluator (N:=QN)) (s : list QN) : QN := match m mex_d s with Ok p => fst p | Err _ => 0%Q end.
Example C75_example :
  shown (metric_importance qsum mex mex_d (mse_eval (N:=QN) stable_argsort None) false) = Some ([67#48; 25#24]%Q, [2; 1]) /\
  shown (metric_importance qsum mex mex_d prec2 false) = Some ([(-1#2); (-1#2)]%Q, [2; 1]) /\
  map (fun q => (fst q, Qred (snd q))) (all_changes qsum mex_rows (metric_value prec2) (fun i => nth (Z.to_nat i) [4; 3; 1; 0]%Q 0%Q) [1; 1#2]%Q mex_ts (fun _ => 0%Q))
  = [(0, (-1#2)%Q); (1, (-1#2)%Q); (0, 0%Q)].
Proof. vmr. Qed.
Example C75_hypotheses : laid_out mex mex_ts [1%Q; (1#2)%Q] /\ decides QN /\
  Forall (fun t => is_split t = true /\ Forall (fun f => 0 <= f < Z.of_nat (ds_nf mex_d)) (splits t)) mex_ts.
Proof.
  split; [|split].
  - repeat (split; [reflexivity|]). split.
    + repeat (split; [reflexivity|]). repeat constructor.
    + split; [|repeat split; reflexivity]. cbn [consecutive mex_ts mark]. split; [reflexivity|]. split.
      * apply NoDup_Permutation.
        -- cbn. repeat (apply NoDup_cons; [cbn; lia|]). apply NoDup_nil.
        -- cbn. repeat (apply NoDup_cons; [cbn; lia|]). apply NoDup_nil.
        -- intros x. vm_compute. tauto.
      * split; [reflexivity|]. split; [|exact I]. apply Permutation_refl.
  - intros a b. reflexivity.
  - repeat constructor; cbn; lia.
Qed.
(** A split that puts the relevant instance first gets a negative importance. *)
Theorem C75_better_ranking_is_negative_refuted : exists (e : ensemble QN) (d : dataset QN) (metric : evaluator (N:=QN)) a b imp cnt,
  metric d [0; 0]%Q = Ok (0%Q, a) /\ metric d [1; 0]%Q = Ok (1%Q, b) /\ shown (metric_importance qsum e d metric false) = Some (imp, cnt) /\
  imp = [(-1)%Q].
Proof.
  exists (mkEns (N:=QN) 1 3 [0] [1%Q] [1; -1; -1] [2; -1; -1] [0; 7; 8]%Q [0; -1; -1]), (mkDataset [[1%Q]; [0%Q]] 1 [1%Q; 0%Q] [0] [0; 2]%nat),
    (metric_eval (N:=QN) (eval_per_query stable_argsort (Precision (N:=QN) (Some 1) 1%Q))).
  exists [0%Q], [1%Q], [(-1)%Q], [1]. vmr.
Qed.
Print Assumptions C75_better_ranking_is_negative_refuted.
(** A tree that is a single leaf counts a use of the last feature. *)
Theorem C75_single_leaf_counted_refuted : exists (e : ensemble QN) (d : dataset QN) imp cnt,
  represents e (Leaf 0 3%Q) /\ uses (N:=QN) 1 [Leaf 0 3%Q] = 0 /\
  shown (metric_importance qsum e d prec2 false) = Some (imp, cnt) /\ nth 1 cnt 0 = 1.
Proof.
  exists (mkEns (N:=QN) 1 1 [0] [1%Q] [-1] [-1] [3%Q] [-1]), mex_d, [0%Q; (0)%Q], [0; 1]. split; [repeat split|]. vmr.
Qed.
Print Assumptions C75_single_leaf_counted_refuted.

(** C76 *)
Theorem C76_squared_error_same_importances : forall (red sum : list RE -> RE) (argsort : list RE -> list nat) (e : ensemble RE) ts ws nf X (y : list RE) ids (d : dataset RE),
  (forall l, red l = Rtotal l) -> (forall l, sum l = Rtotal l) ->
  built nf X y ids d -> Permutation (ds_qids d) (map Z.of_nat (seq 0 (n_queries d))) -> length X = length ids ->
  laid_out e ts ws -> fits X nf -> Forall (visitable X nf) ts ->
  exists imp cnt cnt', eff_importance red e d = Ok (imp, cnt) /\ metric_importance sum e d (mse_eval argsort None) false = Ok (imp, cnt') /\
    forall f, 0 <= f < Z.of_nat nf -> uses f ts < 2 ^ 16 ->
      nth (Z.to_nat f) cnt 0 <= nth (Z.to_nat f) cnt' 0 /\ nth (Z.to_nat f) cnt' 0 = uses f ts.
Proof. exact C76_lemma. Qed.
Print Assumptions C76_squared_error_same_importances.
Example C76_example :
  eff_importance qsum mex mex_d = Ok ([(67#48)%Q; (25#24)%Q], [2; 1]) /\
  shown (metric_importance qsum mex mex_d (mse_eval (N:=QN) stable_argsort None) false) = Some ([67#48; 25#24]%Q, [2; 1]).
Proof. vmr. Qed.
(** The counts differ: the C code does not visit a split reached by one instance. *)
Theorem C76_counts_differ_refuted : exists (e : ensemble QN) (d : dataset QN) imp cnt cnt',
  eff_importance qsum e d = Ok (imp, cnt) /\ shown (metric_importance qsum e d (mse_eval (N:=QN) stable_argsort None) false) = Some (imp, cnt') /\ cnt <> cnt'.
Proof.
  exists (mkEns (N:=QN) 1 5 [0] [1%Q] [1; 2; -1; -1; -1] [4; 3; -1; -1; -1] [5; 2; 10; 20; 30]%Q [0; 1; -1; -1; -1]),
    (mkDataset [[9; 0]; [1; 3]]%Q 2 [4; 3]%Q [0] [0; 2]%nat), [(1#4)%Q; 0%Q], [1; 0], [1; 1].
  split; [vm_compute; reflexivity|]. split; [vm_compute; reflexivity|discriminate].
Qed.
Print Assumptions C76_counts_differ_refuted.
