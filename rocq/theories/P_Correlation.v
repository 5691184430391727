(** Kendall's tau and Spearman's rho: C77, C78. *)
From Coq Require Import List ZArith QArith Reals Lia Lra Bool Permutation.
From Verif Require Import Base Lists Num M_Dataset S_Dataset L_Dataset3 M_Metrics S_Ensemble M_Correlation S_Correlation L_Correlation L_Correlation2 L_Correlation3.
Import ListNotations.
Local Open Scope R_scope.
Ltac vmr := repeat first [split; [vm_compute; reflexivity|] | vm_compute; reflexivity].

(** C77 *)
Theorem C77_documented_formula : forall y s : list R, length y = length s ->
  (flat y \/ flat s -> kendalltau (N:=RE) y s = Ok None) /\ (~ flat y -> ~ flat s -> kendalltau (N:=RE) y s = Ok (Some (tau y s : RE))).
Proof. intros y s H. split; [apply kendall_none, H|apply kendall_some, H]. Qed.
Print Assumptions C77_documented_formula.
Theorem C77_range_and_extremes : forall y s : list R, length y = length s -> ~ flat y -> ~ flat s ->
  -1 <= tau y s <= 1 /\ (tau y s = 1 <-> same_order y s) /\ (tau y s = -1 <-> opposite_order y s).
Proof. intros y s H F1 F2. rewrite (same_order_counts y s H), (opposite_order_counts y s H). exact (tau_bounds y s H F1 F2). Qed.
Print Assumptions C77_range_and_extremes.
Theorem C77_only_order_of_scores : forall (N : Num.num) (f : N -> N) y s, keeps_order f s -> kendalltau y (map f s) = kendalltau y s.
Proof. exact @kendall_keeps_lemma. Qed.
Print Assumptions C77_only_order_of_scores.
Theorem C77_reversed_scores : forall y s s' : list R, length y = length s -> length s = length s' -> opposite_order s s' -> tau y s' = - tau y s.
Proof. exact tau_flip_lemma. Qed.
Print Assumptions C77_reversed_scores.
Theorem C77_document_order_irrelevant : forall y s y' s' : list R, length y = length s -> length y' = length s' -> Permutation (combine y s) (combine y' s') ->
  kendalltau (N:=RE) y s = kendalltau (N:=RE) y' s'.
Proof. exact kendall_perm_lemma. Qed.
Print Assumptions C77_document_order_irrelevant.
Theorem C77_lengths_must_agree : forall (N : Num.num) (y s : list N), length y <> length s -> kendalltau y s = Err ValueError /\ spearmanr y s = Err ValueError.
Proof. intros N y s H. unfold kendalltau, spearmanr. apply Nat.eqb_neq in H. rewrite H. auto. Qed.
Print Assumptions C77_lengths_must_agree.
Theorem C77_mean_of_defined_queries : forall (N : Num.num) (f : list N -> list N -> res (option N)) nf X y ids (d : dataset N) s,
  built nf X y ids d -> length s = length ids ->
  correlation_eval f d s = do v <- mapM (fun q => f (select q ids y) (select q ids s)) (ds_qids d);
    let w := map (option_map nf32) v in
    Ok (match defined w with [] => None | _ => Some (ndiv (nsum (defined w)) (nofnat (length (defined w)))) end, w).
Proof. exact correlation_eval_lemma. Qed.
Print Assumptions C77_mean_of_defined_queries.
Theorem C77_mean_tau : forall nf X y ids (d : dataset RE) s, built nf X y ids d -> length s = length ids ->
  exists m v, correlation_eval (N:=RE) kendalltau d s = Ok (m, v) /\ length v = n_queries d /\
    (m = None <-> forall q, In q (ds_qids d) -> flat (select q ids y) \/ flat (select q ids s)) /\
    forall a, m = Some a -> -1 <= a <= 1 /\ (a = 1 <-> forall q, In q (ds_qids d) -> flat (select q ids y) \/ flat (select q ids s) \/ same_order (select q ids y) (select q ids s)).
Proof.
  exact (mean_lemma (kendalltau (N:=RE)) tau (fun y s H => proj1 (C77_documented_formula y s H)) (fun y s H => proj2 (C77_documented_formula y s H))
    (fun y s H F1 F2 => let G := C77_range_and_extremes y s H F1 F2 in conj (proj1 G) (proj1 (proj2 G)))).
Qed.
Print Assumptions C77_mean_tau.
(** 7 pairs agree, 1 disagrees, one tie on either side: (7 - 1) / sqrt (9 * 9). *)
Example C77_example : kendalltau (N:=QN) [0; 0; 1; 2; 3]%Q [1; 2; 2; 4; 3]%Q = Ok (Some (2 # 3)%Q) /\
  kendalltau (N:=QN) [0; 0; 1; 1]%Q [2; 2; 5; 5]%Q = Ok (Some 1%Q) /\ kendalltau (N:=QN) [0; 0; 1; 1]%Q [5; 5; 2; 2]%Q = Ok (Some (-1)%Q) /\
  kendalltau (N:=QN) [0; 0; 1; 2; 3]%Q [10; 20; 20; 40; 30]%Q = Ok (Some (2 # 3)%Q) /\
  kendalltau (N:=QN) [2; 2; 2]%Q [1; 2; 3]%Q = Ok None /\ kendalltau (N:=QN) [1; 2]%Q [1]%Q = Err ValueError.
Proof. vmr. Qed.
(** The first query has constant labels, so the mean is that of the second and third. *)
Definition cor_d : dataset QN := mkDataset [[1]; [2]; [3]; [4]; [5]; [6]; [7]; [8]]%Q 1 ([1; 1; 0; 1; 2; 0; 1; 2]%Q : list QN) [7; 2; 9]%Z [0; 2; 5; 8]%nat.
Example C77_example_mean : built (V:=QN) 1 [[1]; [2]; [3]; [4]; [5]; [6]; [7]; [8]]%Q [1; 1; 0; 1; 2; 0; 1; 2]%Q [7; 7; 2; 2; 2; 9; 9; 9]%Z cor_d /\
  correlation_eval (N:=QN) spearmanr cor_d [5; 4; 3; 1; 2; 3; 9; 10]%Q = Ok (Some (1 # 4)%Q, [None; Some (-1 # 2)%Q; Some 1%Q]) /\
  correlation_eval (N:=QN) kendalltau (mkDataset [[1]; [2]; [3]; [4]; [5]; [6]]%Q 1 ([1; 1; 0; 1; 0; 1]%Q : list QN) [7; 2; 9]%Z [0; 2; 4; 6]%nat) [5; 4; 2; 2; 9; 3]%Q
  = Ok (Some (-1)%Q, [None; None; Some (-1)%Q]).
Proof. split; [apply built_intro; vm_compute; reflexivity|]. vmr. Qed.
Example C77_example_not_flat : ~ flat [0; 0; 1] /\ ~ flat [3; 2; 2] /\ opposite_order [0; 0; 1] [2; 2; 1] /\ same_order [0; 0; 1] [2; 2; 7].
Proof.
  split; [|split; [|split]].
  - intros F. specialize (F 0%nat 2%nat). cbn in F. specialize (F ltac:(lia) ltac:(lia)). lra.
  - intros F. specialize (F 0%nat 2%nat). cbn in F. specialize (F ltac:(lia) ltac:(lia)). lra.
  - intros [|[|[|i]]] [|[|[|j]]] Hi Hj; cbn in Hi, Hj; try lia; unfold at_; cbn [nth]; split; intros; lra.
  - intros [|[|[|i]]] [|[|[|j]]] Hi Hj; cbn in Hi, Hj; try lia; unfold at_; cbn [nth]; split; intros; lra.
Qed.

(** C78 *)
Theorem C78_pearson_of_ranks : forall y s : list R, length y = length s ->
  (flat y \/ flat s -> spearmanr (N:=RE) y s = Ok None) /\ (~ flat y -> ~ flat s -> spearmanr (N:=RE) y s = Ok (Some (rho y s : RE))).
Proof. intros y s H. split; [apply spearman_none, H|apply spearman_some, H]. Qed.
Print Assumptions C78_pearson_of_ranks.
Theorem C78_range_and_extremes : forall y s : list R, length y = length s -> ~ flat y -> ~ flat s ->
  -1 <= rho y s <= 1 /\ (rho y s = 1 <-> same_order y s) /\ (rho y s = -1 <-> opposite_order y s).
Proof. exact rho_facts. Qed.
Print Assumptions C78_range_and_extremes.
Theorem C78_without_ties : forall y s : list R, length y = length s -> (2 <= length y)%nat -> NoDup y -> NoDup s -> rho y s = rho_distinct y s.
Proof. exact rho_distinct_lemma. Qed.
Print Assumptions C78_without_ties.
Theorem C78_rank_total : forall l : list R, Rtotal (map (rank l) l) = INR (length l) * (INR (length l) + 1) / 2.
Proof. exact rank_total_lemma. Qed.
Print Assumptions C78_rank_total.
Theorem C78_ranks_follow_values : forall (l : list R) u v, In u l -> In v l -> (rank l u < rank l v <-> u < v).
Proof. exact rank_lt. Qed.
Print Assumptions C78_ranks_follow_values.
Theorem C78_only_order_of_scores : forall (N : Num.num) (f : N -> N) y s, keeps_order f s -> spearmanr y (map f s) = spearmanr y s.
Proof. exact @spearman_keeps_lemma. Qed.
Print Assumptions C78_only_order_of_scores.
Theorem C78_reversed_scores : forall y s s' : list R, length s = length s' -> opposite_order s s' -> rho y s' = - rho y s.
Proof. exact rho_flip_lemma. Qed.
Print Assumptions C78_reversed_scores.
Theorem C78_document_order_irrelevant : forall y s y' s' : list R, length y = length s -> length y' = length s' -> Permutation (combine y s) (combine y' s') ->
  spearmanr (N:=RE) y s = spearmanr (N:=RE) y' s'.
Proof. exact spearman_perm_lemma. Qed.
Print Assumptions C78_document_order_irrelevant.
Theorem C78_mean_rho : forall nf X y ids (d : dataset RE) s, built nf X y ids d -> length s = length ids ->
  exists m v, correlation_eval (N:=RE) spearmanr d s = Ok (m, v) /\ length v = n_queries d /\
    (m = None <-> forall q, In q (ds_qids d) -> flat (select q ids y) \/ flat (select q ids s)) /\
    forall a, m = Some a -> -1 <= a <= 1 /\ (a = 1 <-> forall q, In q (ds_qids d) -> flat (select q ids y) \/ flat (select q ids s) \/ same_order (select q ids y) (select q ids s)).
Proof.
  exact (mean_lemma (spearmanr (N:=RE)) rho (fun y s H => proj1 (C78_pearson_of_ranks y s H)) (fun y s H => proj2 (C78_pearson_of_ranks y s H))
    (fun y s H F1 F2 => let G := C78_range_and_extremes y s H F1 F2 in conj (proj1 G) (proj1 (proj2 G)))).
Qed.
Print Assumptions C78_mean_rho.
Example C78_example : spearmanr (N:=QN) [1; 2; 3]%Q [3; 1; 2]%Q = Ok (Some (-1 # 2)%Q) /\ spearmanr (N:=QN) [1; 2; 3]%Q [10; 11; 30]%Q = Ok (Some 1%Q) /\
  rankdata (N:=QN) [5; 1; 5; 5]%Q = [3; 1; 3; 3]%Q /\ rankdata (N:=QN) [7; 7; 2]%Q = [(5 # 2); (5 # 2); 1]%Q /\
  spearmanr (N:=QN) [1; 2]%Q [4; 4]%Q = Ok None /\ spearmanr (N:=QN) [1]%Q [4]%Q = Ok None.
Proof. vmr. Qed.
