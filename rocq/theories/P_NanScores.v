(** C98: metrics when scores or labels are NaN or infinite. *)
From Coq Require Import List ZArith Lia Bool Permutation Sorted SpecFloat.
From Verif Require Import Base Num M_Dataset S_Dataset M_Metrics S_Metrics M_IEEE S_Missing S_Ensemble M_NDCG S_NDCG S_NanScores L_NanScores L_NanLabels L_Dataset3.
Import ListNotations.

(** ** The numbers and the sort *)
(** float32 and float64 are such numbers; the sort exists. *)
Theorem C98_floats : has_nans IEEE32 /\ has_nans IEEE64 /\
  forall N : num, has_nans N -> np_sorting (np_argsort (N:=N)) /\ np_comparing (np_argsort (N:=N)).
Proof. exact (conj (ieee_has_nans 24 128) (conj (ieee_has_nans 53 1024) (@np_argsort_ok))). Qed.
Print Assumptions C98_floats.
(** Without NaN it is the order assumed in the other statements about metrics. *)
Theorem C98_without_nan : forall (N : num) (s : list N) idx, Forall (fun v => nisnan v = false) s -> np_sorts s idx <-> sorts s idx.
Proof. exact (@no_nan). Qed.
Print Assumptions C98_without_nan.

(** ** The ranking *)
(** First the documents whose score is NaN, then the others by decreasing score. *)
Theorem C98_nan_first : forall N : num, has_nans N -> forall (argsort : list N -> list nat) (s : list N), np_sorting argsort ->
  exists a b, rev (argsort s) = a ++ b /\ Permutation a (nan_at s) /\ Permutation b (number_at s) /\
    StronglySorted (fun i j => forall u v, nth_error s i = Some u -> nth_error s j = Some v -> nleb v u = true) b.
Proof. exact (@ranking_splits). Qed.
Print Assumptions C98_nan_first.
(** A document one of whose trees contributes NaN comes before every document with a number. *)
Theorem C98_nan_part_first : forall (argsort : list IEEE32 -> list nat) (ws : list IEEE32) ts rows i j, np_sorting argsort ->
  (exists row, nth_error rows i = Some row /\ In (S754_nan : IEEE32) (tree_scores ws ts row)) ->
  (exists row, nth_error rows j = Some row /\ ensemble_score ws ts row <> S754_nan) ->
  exists a b, rev (argsort (map (ensemble_score ws ts) rows)) = a ++ b /\ In i a /\ In j b.
Proof. exact nan_part_first. Qed.
Print Assumptions C98_nan_part_first.
(** If every score is NaN, every order of the documents is sorted. *)
Theorem C98_all_nan : forall (N : num) (s : list N) idx, Forall (fun v => nisnan v = true) s ->
  Permutation idx (seq 0 (length s)) -> np_sorts s idx.
Proof. exact (@all_nan). Qed.
Print Assumptions C98_all_nan.

(** ** Ranking metrics *)
(** They do not change when NaN is replaced by +inf, if no score is +inf. *)
Theorem C98_nan_as_infinity : forall (argsort : list IEEE32 -> list nat) (m : metric IEEE32) y s, np_comparing argsort ->
  is_ranking m = true -> ~ In (S754_infinity false) s ->
  eval_per_query argsort m y (map nan_to_inf s) = eval_per_query argsort m y s.
Proof. exact nan_ranks_like_infinity. Qed.
Print Assumptions C98_nan_as_infinity.
(** They do not change under any change of the scores that keeps NumPy's order. *)
Theorem C98_order_kept : forall (N : num) (argsort : list N -> list nat) (f : N -> N) (m : metric N) y s, np_comparing argsort ->
  (forall a b, In a s -> In b s -> np_leb (f a) (f b) = np_leb a b) -> is_ranking m = true ->
  eval_per_query argsort m y (map f s) = eval_per_query argsort m y s.
Proof. exact (@order_kept). Qed.
Print Assumptions C98_order_kept.
(** Precision at the number of NaN scores is the fraction of relevant documents among those
    with a NaN score, whatever the other scores. *)
Theorem C98_precision_of_nans : forall N : num, has_nans N -> forall (argsort : list N -> list nat) (thr : N) y s, np_sorting argsort ->
  length y = length s -> (0 < count (fun v => nisnan v) s)%nat ->
  eval_per_query argsort (Precision (Some (Z.of_nat (count (fun v => nisnan v) s))) thr) y s
  = Ok (ndiv (nofnat (count (fun p => nisnan (snd p) && nleb thr (fst p)) (combine y s))) (nofnat (count (fun v => nisnan v) s))).
Proof. exact (@precision_nans). Qed.
Print Assumptions C98_precision_of_nans.

(** ** Values *)
(** One NaN label makes the NDCG of the query NaN, at every cutoff that looks at a document:
    the ideal ranking puts the NaN label first.  ([ndcg32]: the ideal value stored as float32.) *)
Theorem C98_ndcg_of_nan_label : forall N : num, has_nans N -> forall (argsort : list N -> list nat) (norel : N) g cutoff y s, np_sorting argsort ->
  g <> OtherImpl -> length y = length s -> existsb nisnan y = true -> looks_at_some cutoff (length y) ->
  (exists v, eval_per_query argsort (NDCGfresh norel g cutoff) y s = Ok v /\ nisnan v = true) /\
  (exists v, ndcg32 argsort norel g cutoff y s = Ok v /\ nisnan v = true).
Proof. exact (@ndcg_nan). Qed.
Print Assumptions C98_ndcg_of_nan_label.
(** The same for what a NDCG object answers after any history. *)
Theorem C98_ndcg_object : forall N : num, has_nans N -> forall (argsort : list N -> list nat), np_sorting argsort ->
  forall (digest : list (list N) -> list N -> list Z -> Z) norel g cutoff (h : list call) nf X y ids (o : obj (N:=N)) (s : list N) avg v i q,
  built nf X y ids (snd o) -> length s = length ids -> Forall (fun k => made (snd k)) (evaluated h) ->
  Forall (fun k => compatible digest k o) (evaluated h) -> g <> OtherImpl ->
  nth_error (ds_qids (snd o)) i = Some q -> existsb nisnan (select q ids y) = true -> looks_at_some cutoff (length (select q ids y)) ->
  snd (ndcg_eval argsort digest norel g cutoff (after argsort digest norel g cutoff h) o s) = Ok (avg, v) ->
  exists w, nth_error v i = Some w /\ nisnan w = true.
Proof. exact (@ndcg_object_nan). Qed.
Print Assumptions C98_ndcg_object.
(** One NaN score or label makes the RMSE of the query NaN. *)
Theorem C98_rmse_of_nan : forall N : num, has_nans N -> forall (argsort : list N -> list nat) (y s : list N), length y = length s ->
  existsb nisnan y = true \/ existsb nisnan s = true ->
  exists v, eval_per_query argsort (RMSE None) y s = Ok v /\ nisnan v = true.
Proof. exact (@rmse_nan). Qed.
Print Assumptions C98_rmse_of_nan.

(** The largest label: NaN if some label is, otherwise a label that no label exceeds. *)
Theorem C98_largest_label : forall N : num, has_nans N -> forall y : list N,
  (existsb nisnan y = true -> exists m, nmax y = Ok m /\ nisnan m = true) /\
  (y <> [] -> existsb nisnan y = false -> exists m, nmax y = Ok m /\ In m y /\ forall v, In v y -> nleb v m = true).
Proof. intros N HN y. exact (conj (max_of_nan HN y) (max_of_numbers HN y)). Qed.
Print Assumptions C98_largest_label.
(** One NaN label, retrieved or not, makes ERR and Pfound of the query NaN. *)
Theorem C98_cascade_of_nan_label : forall N : num, has_nans N -> forall (argsort : list N -> list nat) (m : metric N) cutoff (y s : list N),
  np_sorting argsort -> m = ERR cutoff \/ (exists pa, m = Pfound cutoff pa) ->
  length y = length s -> existsb nisnan y = true -> looks_at_some cutoff (length y) ->
  exists v, eval_per_query argsort m y s = Ok v /\ nisnan v = true.
Proof. exact (@cascade_nan). Qed.
Print Assumptions C98_cascade_of_nan_label.
(** It makes PrecisionMax zero. *)
Theorem C98_precision_max_of_nan_label : forall N : num, has_nans N -> forall (argsort : list N -> list nat) cutoff (y s : list N),
  np_sorting argsort -> length y = length s -> existsb nisnan y = true -> looks_at_some cutoff (length y) ->
  eval_per_query argsort (PrecisionMax cutoff) y s = Ok (ndiv (nofnat 0) (nofnat (retrieved cutoff (length s)))).
Proof. exact (@best_nan). Qed.
Print Assumptions C98_precision_max_of_nan_label.
(** Precision, Recall, MRR and RBP see of a label only whether it reaches the threshold, so a NaN label
    is one that does not. *)
Theorem C98_threshold_only : forall (N : num) (argsort : list N -> list nat) (thr : N) (m : metric N) (f : N -> N) y s,
  (exists c, m = Precision c thr) \/ (exists c nr, m = Recall nr c thr) \/ (exists c, m = MRR c thr) \/ (exists c p, m = RBP c thr p) ->
  (forall v, In v y -> nleb thr (f v) = nleb thr v) ->
  eval_per_query argsort m (map f y) s = eval_per_query argsort m y s.
Proof. exact (@threshold_only). Qed.
Print Assumptions C98_threshold_only.

(** ** The mean over the queries *)
(** A query whose value is NaN is left out: its labels and scores may be changed (the value
    staying NaN) without any effect on the mean. *)
Theorem C98_mean_leaves_out : forall N : num, has_nans N -> forall (f : list N -> list N -> res N) nf X y ids (d : dataset N) s X' y' (d' : dataset N) s' q,
  built nf X y ids d -> built nf X' y' ids d' -> length s = length ids -> length s' = length ids ->
  (forall p, p <> q -> select p ids y = select p ids y' /\ select p ids s = select p ids s') ->
  (exists v, f (select q ids y) (select q ids s) = Ok v /\ nisnan v = true) ->
  (exists v, f (select q ids y') (select q ids s') = Ok v /\ nisnan v = true) ->
  (do r <- metric_eval f d s; Ok (fst r)) = (do r <- metric_eval f d' s'; Ok (fst r)).
Proof. exact (@mean_skips). Qed.
Print Assumptions C98_mean_leaves_out.

(** ** Examples *)
Definition f0 : IEEE32 := S754_zero false. Definition f1 : IEEE32 := none. Definition f2 : IEEE32 := nadd f1 f1. Definition f3 : IEEE32 := nadd f2 f1.
Definition nan : IEEE32 := S754_nan. Definition inf : IEEE32 := S754_infinity false.
(** Scores 1, NaN, +inf, 2: the ranking is document 1, 2, 3, 0. *)
Example C98_example : rev (np_argsort [f1; nan; inf; f2]) = [1; 2; 3; 0]%nat /\
  nan_at [f1; nan; inf; f2] = [1]%nat /\ number_at [f1; nan; inf; f2] = [0; 2; 3]%nat /\
  eval_per_query np_argsort (Precision (Some 1%Z) f1) [f0; f1; f0; f0] [f1; nan; inf; f2] = Ok f1 /\
  eval_per_query np_argsort (MRR None f1) [f1; f0; f0; f0] [f1; nan; nan; f2] = Ok (ndiv f1 (nofZ (n:=IEEE32) 4)) /\
  eval_per_query np_argsort (MRR None f1) [f1; f0; f0; f0] (map nan_to_inf [f1; nan; nan; f2]) = Ok (ndiv f1 (nofZ (n:=IEEE32) 4)) /\
  eval_per_query np_argsort (NDCGfresh f1 Flat (Some 1%Z)) [f1; nan] [f2; f1] = Ok nan.
Proof. repeat split; vm_compute; reflexivity. Qed.
(** Two queries; the second has a NaN score.  Its RMSE is NaN and the mean is that of the first;
    MSE, which adds the queries up itself, answers NaN. *)
Definition two : dataset IEEE32 := mkDataset [[f0]; [f0]; [f0]] 1 [f1; f0; f1] [0; 1]%Z [0; 1; 3]%nat.
Example C98_means :
  metric_eval (eval_per_query np_argsort (RMSE None)) two [f3; nan; f1] = Ok (f2, [f2; nan]) /\
  metric_eval (eval_per_query np_argsort (RMSE None)) two [f3; f3; nan] = Ok (f2, [f2; nan]) /\
  mse_eval np_argsort None two [f3; nan; f1] = Ok (nan, [ndiv (nofZ (n:=IEEE32) 4) f3; nan]).
Proof. repeat split; vm_compute; reflexivity. Qed.

(** A NDCG object on two queries, the first with a NaN label; log2 of the C library is left open in
    this arithmetic, so only the first value is meant here. *)
Definition lab : dataset IEEE32 := mkDataset [[f0]; [f0]; [f0]] 1 [f1; nan; f0] [5; 8]%Z [0; 2; 3]%nat.
Example C98_object : built 1 [[f0]; [f0]; [f0]] [f1; nan; f0] [5; 5; 8]%Z lab /\
  exists avg v, snd (ndcg_eval np_argsort (fun _ _ _ => 0%Z) f1 Flat (Some 1%Z)
    (after np_argsort (fun _ _ _ => 0%Z) f1 Flat (Some 1%Z) [CallEval (N:=IEEE32) (0%nat, lab) [f1; f2; f3]]) (0%nat, lab) [f2; f1; f3]) = Ok (avg, v) /\
    nth_error v 0 = Some nan.
Proof.
  split; [apply built_intro; vm_compute; reflexivity|]. eexists _, _. split; [vm_compute; reflexivity|reflexivity].
Qed.

(** ** Exceptions *)
(** A document without a usable score is not ranked last: it is ranked before the best one. *)
Theorem C98_nan_last_refuted : exists (y s : list IEEE32),
  eval_per_query np_argsort (Precision (Some 1%Z) f1) y s = Ok f0 /\
  eval_per_query np_argsort (Precision (Some 1%Z) f1) y (map (fun v => if is_nan v then S754_infinity true else v) s) = Ok f1.
Proof. exists [f1; f0], [f2; nan]. split; vm_compute; reflexivity. Qed.
Print Assumptions C98_nan_last_refuted.
(** With a score +inf, NaN and +inf are different: the exact tie would leave the order open. *)
Theorem C98_infinite_score_refuted : exists (y s : list IEEE32) argsort, np_sorting argsort /\ np_comparing argsort /\
  eval_per_query argsort (Precision (Some 1%Z) f1) y s = Ok f1 /\
  eval_per_query argsort (Precision (Some 1%Z) f1) y (map nan_to_inf s) = Ok f0.
Proof.
  exists [f1; f0], [nan; inf], np_argsort. destruct (np_argsort_ok (ieee_has_nans 24 128)) as [A B]. split; [exact A|]. split; [exact B|].
  split; vm_compute; reflexivity.
Qed.
Print Assumptions C98_infinite_score_refuted.
(** A failing query can raise the mean: the model that gives NaN on the hard query has the better
    (lower) RMSE. *)
Theorem C98_nan_improves_refuted : exists (s s' : list IEEE32) a a' v v',
  metric_eval (eval_per_query np_argsort (RMSE None)) two s = Ok (a, v) /\
  metric_eval (eval_per_query np_argsort (RMSE None)) two s' = Ok (a', v') /\
  Forall2 (fun x x' => x' = x \/ x' = nan) s s' /\ nltb a' a = true.
Proof.
  exists [f1; f3; f3], [f1; nan; f3]. eexists _, _, _, _. split; [vm_compute; reflexivity|]. split; [vm_compute; reflexivity|].
  split; [|vm_compute; reflexivity].
  apply Forall2_cons; [left; reflexivity|]. apply Forall2_cons; [right; reflexivity|]. apply Forall2_cons; [left; reflexivity|constructor].
Qed.
Print Assumptions C98_nan_improves_refuted.
(** The second document has a NaN label and is not retrieved; the retrieved one has the best
    label among the numbers. *)
Example C98_nan_labels :
  eval_per_query np_argsort (ERR (Some 1%Z)) [f2; nan; f0] [f3; f1; f2] = Ok nan /\
  eval_per_query np_argsort (Pfound None f1) [f2; nan; f0] [f3; f1; f2] = Ok nan /\
  eval_per_query np_argsort (PrecisionMax (Some 1%Z)) [f2; nan; f0] [f3; f1; f2] = Ok f0 /\
  eval_per_query np_argsort (PrecisionMax (Some 1%Z)) [f2; f1; f0] [f3; f1; f2] = Ok f1 /\
  eval_per_query np_argsort (Precision (Some 2%Z) f1) [f2; nan; f0] [f3; f2; f1] = Ok (ndiv f1 f2) /\
  eval_per_query np_argsort (Precision (Some 2%Z) f1) (map (fun v => if is_nan v then f0 else v) [f2; nan; f0]) [f3; f2; f1] = Ok (ndiv f1 f2).
Proof. repeat split; vm_compute; reflexivity. Qed.
(** A NaN label is not simply an irrelevant one: average precision does not count it among the
    documents found, but divides by it. *)
Theorem C98_nan_label_irrelevant_refuted : exists (y s : list IEEE32),
  eval_per_query np_argsort (MAP f0 None) y s = Ok (ndiv f1 f2) /\
  eval_per_query np_argsort (MAP f0 None) (map (fun v => if is_nan v then f0 else v) y) s = Ok f1.
Proof. exists [f1; nan], [f2; f1]. split; vm_compute; reflexivity. Qed.
Print Assumptions C98_nan_label_irrelevant_refuted.
