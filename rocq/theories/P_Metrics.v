(** Properties C16-C30 (metrics).  Real arithmetic is exact ([RE]) unless said
    otherwise; statements over an arbitrary [num] hold for any arithmetic. *)
From Coq Require Import List ZArith QArith Reals Lia Lra Bool Permutation Sorted.
From Verif Require Import Base Lists Num M_Dataset S_Dataset L_Dataset3 M_Metrics S_Metrics L_Metrics L_MetricsR L_MetricsR2
  L_MetricEval M_NDCG S_NDCG L_NDCG L_Round.
Import ListNotations.

Ltac vmr := repeat first [split; [vm_compute; reflexivity|] | vm_compute; reflexivity].

(** The hypothesis [sorting] is met by a concrete argsort, over the reals. *)
Example sorting_exists : sorting (@stable_argsort RE) /\ comparison_based (@stable_argsort RE).
Proof. split; [apply stable_argsort_sorting, RN_total_order|apply stable_argsort_comparison]. Qed.

(** Another correct argsort: equal keys are listed in reverse order. *)
Definition anti_argsort {N : num} (s : list N) : list nat :=
  map snd (isort (fun p q : N * nat => nleb (fst p) (fst q))
                 (rev (combine s (seq 0 (length s))))).

(** Evaluation of closed comparisons between reals. *)
Ltac rdec := repeat match goal with
  | |- context [Rle_dec ?a ?b] => destruct (Rle_dec a b); try (exfalso; lra)
  | |- context [Rlt_dec ?a ?b] => destruct (Rlt_dec a b); try (exfalso; lra)
  end.

Definition yR : list R := [0; 2; 1]%R.
Definition sR : list R := [1; 3; 2]%R.
Lemma ranked_example : ranked (N:=RE) stable_argsort yR sR = [2; 1; 0]%R.
Proof.
  unfold ranked, stable_argsort, yR, sR. cbn [length seq combine isort insert map snd fst].
  change (@nleb RE) with Rleb. unfold Rleb. 
  repeat (cbn [insert fst snd]; rdec). cbn. reflexivity.
Qed.

(** C16 *)
Theorem C16_eval_is_per_query : forall (N : num) (f : list N -> list N -> res N) nf X y ids (d : dataset N) s avg v,
  built nf X y ids d -> length s = length ids ->
  (metric_eval f d s = Ok (avg, v) <->
   length v = n_queries d /\
   (forall i q, nth_error (ds_qids d) i = Some q ->
      exists x, f (select q ids y) (select q ids s) = Ok x /\ nth_error v i = Some (nf32 x)) /\
   avg = (let w := filter (fun x => negb (nisnan x)) v in ndiv (nsum w) (nofnat (length w)))).
Proof. exact (@C16_iff). Qed.
Print Assumptions C16_eval_is_per_query.

Theorem C16_eval_raises_like_per_query : forall (N : num) (f : list N -> list N -> res N) nf X y ids (d : dataset N) s,
  built nf X y ids d -> length s = length ids ->
  metric_eval f d s
  = do v <- mapM (fun q => f (select q ids y) (select q ids s)) (ds_qids d);
    Ok (nanmean (map nf32 v), map nf32 v).
Proof. exact (@C16_lemma). Qed.
Print Assumptions C16_eval_raises_like_per_query.

Definition exq_d : dataset QN :=
  mkDataset [[1]; [2]; [3]; [4]; [5]]%Q 1 ([0; 1; 2; 0; 1]%Q : list QN) [7; 2; 9]%Z [0; 2; 3; 5]%nat.
Example C16_example : built (V:=QN) 1 [[1]; [2]; [3]; [4]; [5]]%Q [0; 1; 2; 0; 1]%Q [7; 7; 2; 9; 9]%Z exq_d /\
  metric_eval (N:=QN) (eval_per_query stable_argsort (Precision (N:=QN) (Some 1%Z) 1%Q)) exq_d [5; 4; 3; 2; 9]%Q
  = Ok ((2 # 3), [0; 1; 1])%Q /\
  select 9 [7; 7; 2; 9; 9]%Z [5; 4; 3; 2; 9]%Q = [2; 9]%Q.
Proof. split; [apply built_intro; vm_compute; reflexivity|]. vmr. Qed.

(** C17 *)
Theorem C17_rank_invariance : forall (N : num) (argsort : list N -> list nat) (f : N -> N) (m : metric N) y s,
  sorting argsort -> comparison_based argsort -> (forall a b, nleb (f a) (f b) = nleb a b) ->
  length y = length s -> is_ranking m = true ->
  eval_per_query argsort m y (map f s) = eval_per_query argsort m y s.
Proof. exact (@C17_lemma). Qed.
Print Assumptions C17_rank_invariance.

Theorem C17_rank_invariance_real : forall (argsort : list RE -> list nat) (f : R -> R) (m : metric RE) y s,
  sorting argsort -> comparison_based argsort -> (forall a b, (a < b)%R -> (f a < f b)%R) ->
  length y = length s -> is_ranking m = true ->
  eval_per_query argsort m y (map f s) = eval_per_query argsort m y s.
Proof.
  intros argsort f m y s Hs Hc Hf. apply (@C17_lemma RE); auto. intros a b. change (@nleb RE) with Rleb.
  destruct (Rleb a b) eqn:E.
  - apply Rleb_true in E. apply Rleb_true. destruct E as [E|E]; [left; apply Hf; exact E|right; f_equal; exact E].
  - apply Rleb_false in E. apply Rleb_false. apply Hf. exact E.
Qed.
Print Assumptions C17_rank_invariance_real.

(** RMSE is not a ranking metric: a strictly increasing map changes it. *)
Example C17_example : 
  eval_per_query (N:=QN) stable_argsort (RMSE (N:=QN) None) [1; 2]%Q (map (fun x => (2 * x)%Q) [1; 2]%Q)
  <> eval_per_query (N:=QN) stable_argsort (RMSE (N:=QN) None) [1; 2]%Q [1; 2]%Q /\
  eval_per_query (N:=QN) stable_argsort (ERR (N:=QN) (Some 2%Z)) [1; 2; 0]%Q (map (fun x => (2 * x + 1)%Q) [1; 5; 2]%Q)
  = Ok (Qmake 3 4) /\
  eval_per_query (N:=QN) stable_argsort (ERR (N:=QN) (Some 2%Z)) [1; 2; 0]%Q [1; 5; 2]%Q = Ok (Qmake 3 4).
Proof. split; [vm_compute; congruence|]. vmr. Qed.

(** C18 *)
Theorem C18_no_ties_no_dependence : forall (N : num) (argsort argsort' : list N -> list nat) (m : metric N) y s y' s',
  total_order N -> sorting argsort -> sorting argsort' ->
  length y = length s -> length y' = length s' -> no_ties s ->
  Permutation (combine s y) (combine s' y') -> is_ranking m = true ->
  eval_per_query argsort m y s = eval_per_query argsort' m y' s'.
Proof. exact (@C18_lemma). Qed.
Print Assumptions C18_no_ties_no_dependence.

Lemma sorts_ties a : sorts (N:=RE) [a; a] [0%nat; 1%nat] /\ sorts (N:=RE) [a; a] [1%nat; 0%nat].
Proof.
  assert (H : forall i j u v, nth_error [a; a] i = Some u -> nth_error [a; a] j = Some v -> @nleb RE u v = true).
  { intros i j u v Hi Hj. apply nth_error_In in Hi, Hj. change (@nleb RE) with Rleb. apply Rleb_true.
    cbn in Hi, Hj. destruct Hi as [<-|[<-|[]]], Hj as [<-|[<-|[]]]; right; reflexivity. }
  split; (split; [|repeat constructor; intros; eapply H; eauto]); [apply Permutation_refl|apply perm_swap].
Qed.

(** With ties two correct argsorts give different Precision@1. *)
Theorem C18_ties_refuted : exists (a a' : list RE -> list nat), sorting a /\ sorting a' /\
  eval_per_query a (Precision (N:=RE) (Some 1%Z) (1%R : RE)) [1; 0]%R [0; 0]%R
  <> eval_per_query a' (Precision (N:=RE) (Some 1%Z) (1%R : RE)) [1; 0]%R [0; 0]%R.
Proof.
  set (sw := fun (p : list nat) (s : list RE) => match s with
    | [a; b] => if Reqb a b then p else stable_argsort s | _ => stable_argsort s end).
  assert (S : forall p, (forall a, sorts (N:=RE) [a; a] p) -> sorting (N:=RE) (sw p)).
  { intros p Hp s. pose proof (proj1 sorting_exists s) as G. unfold sw.
    destruct s as [|a [|b [|c s]]]; auto. destruct (Reqb a b) eqn:E; auto. apply Reqb_true in E. subst. apply Hp. }
  exists (sw [0%nat; 1%nat]), (sw [1%nat; 0%nat]).
  split; [apply S; intros; apply sorts_ties|]. split; [apply S; intros; apply sorts_ties|].
  assert (E : Reqb 0 0 = true) by (apply Reqb_true; reflexivity).
  cbn [eval_per_query]. unfold precision, order, sw. rewrite E. cbn [rev app].
  change (@nleb RE) with Rleb.
  assert (O1 : forall p : list nat, length p = 2%nat -> slice_to 1 p = firstn 1 p).
  { intros p Hp. unfold slice_to, slice_bound. rewrite Hp. reflexivity. }
  rewrite !O1 by reflexivity. unfold count. cbn [firstn take mapM nth_error of_option bind filter length].
  assert (Rleb 1 0 = false) as -> by (apply Rleb_false; lra).
  assert (Rleb 1 1 = true) as -> by (apply Rleb_true; lra).
  cbn. intros H. inversion H. lra.
Qed.
Print Assumptions C18_ties_refuted.

Example C18_example : no_ties (N:=RE) sR /\ Permutation (combine sR yR) (combine (rev sR) (rev yR)).
Proof.
  split.
  - intros i j a b Hi Hj H1 H2. change (@nleb RE) with Rleb in *. apply Rleb_true in H1, H2.
    assert (a = b :> R) by lra. subst.
    destruct i as [|[|[|i]]], j as [|[|[|j]]]; cbn in Hi, Hj; auto; try (destruct i; discriminate); try (destruct j; discriminate);
      inversion Hi; inversion Hj; subst; exfalso; lra.
  - cbn. change (@Permutation (R * R) (rev [(2,1);(3,2);(1,0)])%R [(2,1);(3,2);(1,0)]%R). symmetry. apply Permutation_rev.
Qed.

(** C19 *)
Theorem C19_large_cutoff : forall (N : num) (argsort : list N -> list nat) (m : metric N) y s k,
  sorting argsort -> length y = length s -> is_ranking m = true -> (Z.of_nat (length s) <= k)%Z ->
  eval_per_query argsort (with_cutoff (Some k) m) y s = eval_per_query argsort (with_cutoff None m) y s.
Proof. exact (@C19_large_lemma). Qed.
Print Assumptions C19_large_cutoff.

Theorem C19_top_k_only : forall (N : num) (argsort argsort' : list N -> list nat) (m : metric N) y s y' s' k,
  sorting argsort -> sorting argsort' -> length y = length s -> length y' = length s' ->
  top_only m = true -> (0 <= k)%Z ->
  firstn (Z.to_nat k) (ranked argsort y s) = firstn (Z.to_nat k) (ranked argsort' y' s') ->
  eval_per_query argsort (with_cutoff (Some k) m) y s = eval_per_query argsort' (with_cutoff (Some k) m) y' s'.
Proof. exact (@C19_top_lemma). Qed.
Print Assumptions C19_top_k_only.

(** Below the cutoff the rest of the list is irrelevant, but not for Recall. *)
Example C19_example :
  firstn 1 (ranked (N:=QN) stable_argsort [1; 0; 0]%Q [3; 2; 1]%Q)
  = firstn 1 (ranked (N:=QN) stable_argsort [1; 1]%Q [9; 2]%Q) /\
  eval_per_query (N:=QN) stable_argsort (Recall (N:=QN) 0%Q (Some 1%Z) 1%Q) [1; 0; 0]%Q [3; 2; 1]%Q
  <> eval_per_query (N:=QN) stable_argsort (Recall (N:=QN) 0%Q (Some 1%Z) 1%Q) [1; 1]%Q [9; 2]%Q.
Proof. split; [vm_compute; reflexivity|vm_compute; congruence]. Qed.

Local Open Scope R_scope.
Implicit Types (y s : list RE).

(** C20 *)
Theorem C20_precision : forall (argsort : list RE -> list nat), sorting argsort -> forall cutoff (thr : RE) y s,
  length y = length s ->
  let K := retrieved cutoff (length s) in
  (K = 0%nat -> eval_per_query argsort (Precision cutoff thr) y s = Err ZeroDivisionError) /\
  ((0 < K)%nat ->
   eval_per_query argsort (Precision cutoff thr) y s
     = Ok (INR (num_of (fun i => Rleb thr (lab argsort y s i)) K) / INR K) /\
   0 <= INR (num_of (fun i => Rleb thr (lab argsort y s i)) K) / INR K <= 1).
Proof. exact precision_lemma. Qed.
Print Assumptions C20_precision.

Theorem C20_recall : forall (argsort : list RE -> list nat), sorting argsort -> forall (norel : RE) cutoff (thr : RE) y s,
  length y = length s ->
  let K := retrieved cutoff (length s) in
  let rel := num_of (fun i => Rleb thr (nth i y 0)) (length y) in
  let hits := num_of (fun i => Rleb thr (lab argsort y s i)) K in
  (rel = 0%nat -> eval_per_query argsort (Recall norel cutoff thr) y s = Ok norel) /\
  ((0 < rel)%nat ->
   eval_per_query argsort (Recall norel cutoff thr) y s = Ok (INR hits / INR rel) /\
   0 <= INR hits / INR rel <= 1 /\ (cutoff = None -> INR hits / INR rel = 1)).
Proof. exact recall_lemma. Qed.
Print Assumptions C20_recall.

Theorem C20_recall_monotone : forall (argsort : list RE -> list nat), sorting argsort ->
  forall (norel : RE) c1 c2 (thr : RE) y s v1 v2, length y = length s ->
  (retrieved c1 (length s) <= retrieved c2 (length s))%nat ->
  eval_per_query argsort (Recall norel c1 thr) y s = Ok v1 ->
  eval_per_query argsort (Recall norel c2 thr) y s = Ok v2 -> v1 <= v2.
Proof. exact recall_mono_lemma. Qed.
Print Assumptions C20_recall_monotone.

Example C20_example :
  eval_per_query (N:=QN) stable_argsort (Precision (N:=QN) (Some 2%Z) 1%Q) [0; 2; 1; 1]%Q [4; 3; 2; 1]%Q = Ok (Qmake 1 2) /\
  eval_per_query (N:=QN) stable_argsort (Recall (N:=QN) 0%Q (Some 2%Z) 1%Q) [0; 2; 1; 1]%Q [4; 3; 2; 1]%Q = Ok (Qmake 1 3) /\
  eval_per_query (N:=QN) stable_argsort (Precision (N:=QN) (Some 0%Z) 1%Q) [0; 2; 1; 1]%Q [4; 3; 2; 1]%Q = Err ZeroDivisionError /\
  retrieved (Some (-1)%Z) 4 = 3%nat.
Proof. vmr. Qed.

(** C21 *)
Theorem C21_reciprocal_rank : forall (argsort : list RE -> list nat), sorting argsort -> forall cutoff (thr : RE) y s,
  length y = length s ->
  let K := retrieved cutoff (length s) in
  (exists i, (i < K)%nat /\ thr <= lab argsort y s i /\ (forall j, (j < i)%nat -> lab argsort y s j < thr) /\
     eval_per_query argsort (MRR cutoff thr) y s = Ok (1 / INR (i + 1))) \/
  ((forall j, (j < K)%nat -> lab argsort y s j < thr) /\
     eval_per_query argsort (MRR cutoff thr) y s = Ok 0).
Proof. exact mrr_lemma. Qed.
Print Assumptions C21_reciprocal_rank.

Theorem C21_monotone_in_cutoff : forall (argsort : list RE -> list nat), sorting argsort ->
  forall c1 c2 (thr : RE) y s v1 v2, length y = length s ->
  (retrieved c1 (length s) <= retrieved c2 (length s))%nat ->
  eval_per_query argsort (MRR c1 thr) y s = Ok v1 ->
  eval_per_query argsort (MRR c2 thr) y s = Ok v2 -> v1 <= v2.
Proof. exact mrr_mono_lemma. Qed.
Print Assumptions C21_monotone_in_cutoff.

Example C21_example :
  eval_per_query (N:=QN) stable_argsort (MRR (N:=QN) None 1%Q) [0; 0; 2; 1]%Q [4; 3; 1; 2]%Q = Ok (Qmake 1 3) /\
  eval_per_query (N:=QN) stable_argsort (MRR (N:=QN) (Some 2%Z) 1%Q) [0; 0; 2; 1]%Q [4; 3; 1; 2]%Q = Ok 0%Q.
Proof. vmr. Qed.

(** C22 *)
Theorem C22_average_precision : forall (argsort : list RE -> list nat), sorting argsort -> forall (norel : RE) cutoff y s,
  length y = length s -> Forall (fun v => 0 <= v) y ->
  let K := retrieved cutoff (length s) in
  let rel i := Rltb 0 (lab argsort y s i) in
  let nrel := num_of (fun i => Rltb 0 (nth i y 0)) (length y) in
  (num_of rel K = 0%nat -> eval_per_query argsort (MAP norel cutoff) y s = Ok norel) /\
  ((0 < num_of rel K)%nat ->
    exists v, eval_per_query argsort (MAP norel cutoff) y s = Ok v /\
      v = Rsum (fun i => if rel i then INR (num_of rel (S i)) / INR (S i) else 0) K / INR (Nat.min K nrel) /\
      0 <= v <= 1 /\
      (v = 1 <-> forall i, (i < Nat.min K nrel)%nat -> rel i = true)).
Proof. exact map_lemma. Qed.
Print Assumptions C22_average_precision.

(** The anomaly: with the default no_relevant_results = 1.0 a ranking that
    retrieves no relevant row scores higher than one that does. *)
Theorem C22_worse_ranking_scores_higher_refuted : exists (y s s' : list QN) v v',
  nth 0 (ranked stable_argsort y s) 0%Q = 0%Q /\ nth 1 (ranked stable_argsort y s) 0%Q = 1%Q /\
  nth 0 (ranked stable_argsort y s') 0%Q = 0%Q /\ nth 1 (ranked stable_argsort y s') 0%Q = 0%Q /\
  eval_per_query stable_argsort (MAP (1%Q : QN) (Some 2%Z)) y s = Ok v /\
  eval_per_query stable_argsort (MAP (1%Q : QN) (Some 2%Z)) y s' = Ok v' /\ Qlt v v'.
Proof.
  exists [0; 1; 0]%Q, [3; 2; 1]%Q, [3; 1; 2]%Q, (Qmake 1 2), 1%Q.
  do 6 (split; [vm_compute; reflexivity|]). reflexivity.
Qed.
Print Assumptions C22_worse_ranking_scores_higher_refuted.

Example C22_example :
  eval_per_query (N:=QN) stable_argsort (MAP (N:=QN) 1%Q None) [1; 0; 2]%Q [3; 2; 1]%Q = Ok (Qmake 5 6).
Proof. vmr. Qed.

(** C23 *)
Theorem C23_ideal_dcg_is_maximal : forall (argsort : list RE -> list nat), sorting argsort -> forall g cutoff y s,
  length y = length s -> g <> OtherImpl ->
  exists v v', eval_per_query argsort (DCG g cutoff) y s = Ok v /\
    eval_per_query argsort (DCG g cutoff) y y = Ok v' /\
    v = dcgR g (lab argsort y s) (retrieved cutoff (length s)) /\ v <= v'.
Proof. exact C23_lemma. Qed.
Print Assumptions C23_ideal_dcg_is_maximal.

(** The best ranking beats a worse one strictly on this query. *)
Example C23_example :
  eval_per_query (N:=QN) stable_argsort (DCG (N:=QN) Exp (Some 1%Z)) [0; 3; 1]%Q [1; 2; 3]%Q = Ok 1%Q /\
  eval_per_query (N:=QN) stable_argsort (DCG (N:=QN) Exp (Some 1%Z)) [0; 3; 1]%Q [0; 3; 1]%Q = Ok 7%Q.
Proof. vmr. Qed.

(** C24 *)
Theorem C24_ndcg : forall (argsort : list RE -> list nat), sorting argsort -> forall (norel : RE) g cutoff y s,
  length y = length s -> g <> OtherImpl -> Forall (fun v => 0 <= v) y ->
  let K := retrieved cutoff (length s) in
  (K = 0%nat \/ Forall (fun v => v = 0) y ->
     eval_per_query argsort (NDCGfresh norel g cutoff) y s = Ok norel) /\
  ((0 < K)%nat -> Exists (fun v => 0 < v) y ->
     exists v, eval_per_query argsort (NDCGfresh norel g cutoff) y s = Ok v /\
       v = dcgR g (lab argsort y s) K / dcgR g (lab argsort y y) K /\
       0 < dcgR g (lab argsort y y) K /\
       0 <= v <= 1 /\
       (StronglySorted (fun a b => b <= a) (ranked argsort y s : list R) -> v = 1)).
Proof. exact C24_lemma. Qed.
Print Assumptions C24_ndcg.

(** When the ideal DCG is stored with relative error at most [eps] (float32). *)
Theorem C24_ndcg_rounded : forall (rnd : R -> R) (eps : R) (argsort : list R -> list nat) (norel : R) g cutoff (y s : list R),
  sorting (N:=RE) argsort -> 0 <= eps < 1 -> (forall x, Rabs (rnd x - x) <= eps * Rabs x) ->
  length y = length s -> g <> OtherImpl -> Forall (fun v => 0 <= v) y ->
  (0 < retrieved cutoff (length s))%nat -> Exists (fun v => 0 < v) y ->
  exists v : R, ndcg32 (N:=RN rnd) argsort norel g cutoff y s = Ok v /\ 0 <= v <= 1 / (1 - eps) /\
    (StronglySorted (fun a b => b <= a) (ranked (N:=RE) argsort y s) -> 1 / (1 + eps) <= v).
Proof. exact C24_round_lemma. Qed.
Print Assumptions C24_ndcg_rounded.

Example C24_example : length yR = length sR /\ Forall (fun v => 0 <= v) yR /\ Exists (fun v => 0 < v) yR /\
  (0 < retrieved (Some 2%Z) (length sR))%nat /\
  StronglySorted (fun a b => b <= a) (ranked (N:=RE) stable_argsort yR sR : list R).
Proof.
  rewrite ranked_example. split; [reflexivity|]. split; [repeat constructor; lra|].
  split; [right; left; lra|]. split; [cbn; lia|]. repeat constructor; lra.
Qed.

(** C25 *)
Theorem C25_eval_independent_of_history :
  forall (N : num) (argsort : list N -> list nat), permuting argsort ->
  forall (digest : list (list N) -> list N -> list Z -> Z) norel g cutoff (h : list call) (o : obj) (s : list N),
  Forall (fun k => made (snd k)) (evaluated h) -> made (snd o) ->
  Forall (fun k => compatible digest k o) (evaluated h) ->
  let st := after argsort digest norel g cutoff h in
  let st' := fst (ndcg_eval argsort digest norel g cutoff st o s) in
  snd (ndcg_eval argsort digest norel g cutoff st o s)
    = metric_eval (ndcg32 argsort norel g cutoff) (snd o) s /\
  (is_ok (snd (ndcg_eval argsort digest norel g cutoff st o s)) = true -> g <> OtherImpl ->
   forall (y' s' : list N), length y' = length s' ->
     ndcg_per_query argsort digest norel g cutoff st' y' s' = (st', Err IndexError)).
Proof. exact (@C25_eval_lemma). Qed.
Print Assumptions C25_eval_independent_of_history.

Theorem C25_fresh_object_per_query :
  forall (N : num) (argsort : list N -> list nat)
    (digest : list (list N) -> list N -> list Z -> Z) norel g cutoff (h : list call) (y s : list N),
  evaluated h = [] ->
  snd (ndcg_per_query argsort digest norel g cutoff (after argsort digest norel g cutoff h) y s)
  = ndcg_fresh argsort norel g cutoff y s.
Proof. exact (@C25_fresh_lemma). Qed.
Print Assumptions C25_fresh_object_per_query.

(** Two data sets that compare equal but have different query boundaries. *)
Definition ndA : dataset QN := mkDataset [[1]; [1]; [1]]%Q 1 ([0; 1; 0]%Q : list QN) [1; 2]%Z [0; 2; 3]%nat.
Definition ndB : dataset QN := mkDataset [[1]; [1]; [1]]%Q 1 ([0; 1; 0]%Q : list QN) [1; 2]%Z [0; 1; 3]%nat.
Definition dg0 : list (list QN) -> list QN -> list Z -> Z := fun _ _ q => Z.of_nat (length q).

Theorem C25_stale_cache_refuted : exists (h : list (call (N:=QN))) o (s : list QN),
  Forall (fun k => made (snd k)) (evaluated h) /\ made (snd o) /\
  Forall (fun k => ds_eq neqb (snd k) (snd o) = Ok true) (evaluated h) /\
  snd (ndcg_eval stable_argsort dg0 (1%Q : QN) Flat (Some 1%Z) (after stable_argsort dg0 (1%Q : QN) Flat (Some 1%Z) h) o s)
  <> metric_eval (ndcg32 stable_argsort (1%Q : QN) Flat (Some 1%Z)) (snd o) s.
Proof.
  exists [CallEval (N:=QN) (0%nat, ndA) [1; 2; 3]%Q], (1%nat, ndB), [1; 2; 3]%Q.
  split; [repeat constructor; exists 1%nat, [[1]; [1]; [1]]%Q, [0; 1; 0]%Q, [1; 1; 2]%Z; vm_compute; reflexivity|].
  split; [exists 1%nat, [[1]; [1]; [1]]%Q, [0; 1; 0]%Q, [1; 2; 2]%Z; vm_compute; reflexivity|].
  split; [repeat constructor; vm_compute; reflexivity|].
  vm_compute. congruence.
Qed.
Print Assumptions C25_stale_cache_refuted.

(** A non-trivial history: another data set, the same one, and a direct call. *)
Definition ndC : dataset QN := mkDataset [[2]; [1]; [1]]%Q 1 ([3; 1; 0]%Q : list QN) [4; 2]%Z [0; 1; 3]%nat.
Example C25_example :
  let h := [CallEval (N:=QN) (0%nat, ndA) [1; 2; 3]%Q; CallPerQuery (N:=QN) [1; 0]%Q [2; 1]%Q; CallEval (N:=QN) (1%nat, ndC) [1; 2; 3]%Q;
            CallEval (N:=QN) (0%nat, ndA) [3; 2; 1]%Q] : list (call (N:=QN)) in
  Forall (fun k => made (snd k)) (evaluated h) /\
  Forall (fun k => compatible dg0 k (1%nat, ndC)) (evaluated h).
Proof.
  assert (MA : made ndA) by (exists 1%nat, [[1]; [1]; [1]]%Q, [0; 1; 0]%Q, [1; 1; 2]%Z; vm_compute; reflexivity).
  assert (MC : made ndC) by (exists 1%nat, [[2]; [1]; [1]]%Q, [3; 1; 0]%Q, [4; 2; 2]%Z; vm_compute; reflexivity).
  split; [repeat constructor; auto|].
  assert (CA : compatible dg0 (0%nat, ndA) (1%nat, ndC)).
  { right. split; [cbn; lia|]. intros _. exists false. split; [vm_compute; reflexivity|discriminate]. }
  cbn [evaluated flat_map app].
  repeat (apply Forall_cons; [first [exact CA|left; reflexivity]|]). apply Forall_nil.
Qed.

(** C26 *)
Theorem C26_err : forall (argsort : list RE -> list nat), sorting argsort -> forall cutoff y s m,
  length y = length s -> In m y -> Forall (fun v => v <= m) y -> Forall (fun v => 0 <= v) y ->
  let K := retrieved cutoff (length s) in
  let u i := satisfy m (lab argsort y s i) in
  exists v, eval_per_query argsort (ERR cutoff) y s = Ok v /\
    v = Rsum (fun i => Rprod (fun j => 1 - u j) i * (u i / INR (i + 1))) K /\
    0 <= v <= 1 - Rprod (fun j => 1 - u j) K /\ v < 1.
Proof. exact C26_lemma. Qed.
Print Assumptions C26_err.

Theorem C26_err_monotone_in_cutoff : forall (argsort : list RE -> list nat), sorting argsort ->
  forall c1 c2 y s v1 v2, length y = length s -> Forall (fun v => 0 <= v) y ->
  (retrieved c1 (length s) <= retrieved c2 (length s))%nat ->
  eval_per_query argsort (ERR c1) y s = Ok v1 -> eval_per_query argsort (ERR c2) y s = Ok v2 -> v1 <= v2.
Proof. exact err_mono_lemma. Qed.
Print Assumptions C26_err_monotone_in_cutoff.

Example C26_example : In (2 : R) yR /\ Forall (fun v => v <= 2) yR /\ Forall (fun v => 0 <= v) yR /\
  eval_per_query (N:=QN) stable_argsort (ERR (N:=QN) None) [0; 2; 1]%Q [1; 3; 2]%Q = Ok (Qmake 25 32).
Proof. split; [cbn; auto|]. split; [repeat constructor; lra|]. split; [repeat constructor; lra|]. vm_compute; reflexivity. Qed.

(** C27 *)
Theorem C27_pfound : forall (argsort : list RE -> list nat), sorting argsort -> forall cutoff (pa : RE) y s m,
  length y = length s -> In m y -> Forall (fun v => v <= m) y -> Forall (fun v => 0 <= v) y -> 0 <= pa <= 1 ->
  let K := retrieved cutoff (length s) in
  let u i := satisfy m (lab argsort y s i) in
  exists v, eval_per_query argsort (Pfound cutoff pa) y s = Ok v /\
    v = Rsum (fun i => Rprod (fun j => 1 - u j) i * u i * pa ^ i) K /\
    0 <= v < 1 /\
    (pa = 1 -> v = 1 - Rprod (fun j => 1 - u j) K) /\
    (pa = 0 -> (0 < K)%nat -> v = u 0%nat).
Proof. exact C27_lemma. Qed.
Print Assumptions C27_pfound.

Theorem C27_pfound_monotone_in_p : forall (argsort : list RE -> list nat), sorting argsort ->
  forall cutoff (pa pa' : RE) y s v v', length y = length s -> Forall (fun v => 0 <= v) y ->
  0 <= pa -> pa <= pa' ->
  eval_per_query argsort (Pfound cutoff pa) y s = Ok v ->
  eval_per_query argsort (Pfound cutoff pa') y s = Ok v' -> v <= v'.
Proof. exact pfound_mono_lemma. Qed.
Print Assumptions C27_pfound_monotone_in_p.

Example C27_example :
  eval_per_query (N:=QN) stable_argsort (Pfound (N:=QN) None (Qmake 1 2)) [0; 2; 1]%Q [1; 3; 2]%Q = Ok (Qmake 25 32) /\
  eval_per_query (N:=QN) stable_argsort (Pfound (N:=QN) None 1%Q) [0; 2; 1]%Q [1; 3; 2]%Q = Ok (Qmake 13 16) /\
  eval_per_query (N:=QN) stable_argsort (Pfound (N:=QN) None 0%Q) [0; 2; 1]%Q [1; 3; 2]%Q = Ok (Qmake 3 4).
Proof. vmr. Qed.

(** C28 *)
Theorem C28_rbp : forall (argsort : list RE -> list nat), sorting argsort -> forall cutoff (thr p : RE) y s,
  length y = length s -> 0 <= p <= 1 ->
  let K := retrieved cutoff (length s) in
  let rel i := Rleb thr (lab argsort y s i) in
  exists v, eval_per_query argsort (RBP cutoff thr p) y s = Ok v /\
    v = (1 - p) * Rsum (fun i => (if rel i then 1 else 0) * p ^ i) K /\
    0 <= v <= 1 - p ^ K /\ 1 - p ^ K <= 1 /\
    ((forall i, (i < K)%nat -> thr <= lab argsort y s i) -> v = 1 - p ^ K).
Proof. exact C28_lemma. Qed.
Print Assumptions C28_rbp.

Theorem C28_rbp_p0_is_precision_at_1 : forall (argsort : list RE -> list nat), sorting argsort ->
  forall cutoff (thr : RE) y s, length y = length s -> (0 < retrieved cutoff (length s))%nat ->
  eval_per_query argsort (RBP cutoff thr (0 : RE)) y s = eval_per_query argsort (Precision (Some 1%Z) thr) y s.
Proof. exact rbp_zero_lemma. Qed.
Print Assumptions C28_rbp_p0_is_precision_at_1.

Example C28_example :
  eval_per_query (N:=QN) stable_argsort (RBP (N:=QN) None 1%Q (Qmake 1 2)) [0; 2; 1]%Q [1; 3; 2]%Q = Ok (Qmake 3 4) /\
  eval_per_query (N:=QN) stable_argsort (RBP (N:=QN) None 0%Q (Qmake 1 2)) [0; 2; 1]%Q [1; 3; 2]%Q = Ok (Qmake 7 8).
Proof. vmr. Qed.

(** C29 *)
Theorem C29_mse_eval : forall (argsort : list RE -> list nat) nf X y ids (d : dataset RE) s,
  built nf X y ids d -> length s = length ids ->
  Permutation (ds_qids d) (map Z.of_nat (seq 0 (n_queries d))) ->
  exists v, mse_eval argsort None d s = Ok ((sse y s / INR (length ids))%R : RE, v) /\
    length v = n_queries d /\
    forall k, In (Z.of_nat k) ids ->
      nth_error v k = Some (sse (select (Z.of_nat k) ids y) (select (Z.of_nat k) ids s) / INR (length ids))%R.
Proof. exact C29_lemma. Qed.
Print Assumptions C29_mse_eval.

Theorem C29_mse_eval_out_of_range_id : forall (argsort : list RE -> list nat) nf X y ids (d : dataset RE) s q,
  built nf X y ids d -> length s = length ids -> In q ids ->
  (q < - Z.of_nat (n_queries d) \/ Z.of_nat (n_queries d) <= q)%Z ->
  mse_eval argsort None d s = Err IndexError.
Proof. exact C29_out_lemma. Qed.
Print Assumptions C29_mse_eval_out_of_range_id.

Definition mseD : dataset QN := mkDataset [[1]; [1]; [1]]%Q 1 ([0; 1; 0]%Q : list QN) [1; 0]%Z [0; 2; 3]%nat.
Example C29_example : Permutation (ds_qids mseD) (map Z.of_nat (seq 0 (n_queries mseD))) /\
  built (V:=QN) 1 [[1]; [1]; [1]]%Q [0; 1; 0]%Q [1; 1; 0]%Z mseD /\
  mse_eval (N:=QN) stable_argsort None mseD [1; 2; 1]%Q = Ok (1, [Qmake 1 3; Qmake 2 3])%Q.
Proof.
  split; [apply perm_swap|]. split; [apply built_intro; vm_compute; reflexivity|]. vm_compute; reflexivity.
Qed.

(** Ids -1 and 1 share a slot: the first query's error is lost. *)
Theorem C29_collision_refuted : exists nf X (y : list QN) ids (d : dataset QN) (s : list QN) v,
  built nf X y ids d /\ length s = length ids /\
  mse_eval stable_argsort None d s = Ok (v, [0; v])%Q /\
  mse_pq stable_argsort None y s = Ok 5%Q /\ length ids = 2%nat /\ Qlt v (5 / 2).
Proof.
  exists 1%nat, [[1]; [1]]%Q, [0; 0]%Q, [-1; 1]%Z, (mkDataset [[1]; [1]]%Q 1 ([0; 0]%Q : list QN) [-1; 1]%Z [0; 1; 2]%nat), [2; 1]%Q, (Qmake 1 2).
  split; [apply built_intro; vm_compute; reflexivity|]. do 4 (split; [vm_compute; reflexivity|]). reflexivity.
Qed.
Print Assumptions C29_collision_refuted.

(** C30 *)
Theorem C30_rmse : forall (argsort : list RE -> list nat) y s, length y = length s ->
  exists v, eval_per_query argsort (RMSE None) y s = Ok v /\
    v = sqrt (sse y s) /\ 0 <= v /\ (v = 0 <-> y = s) /\
    ((1 < length y)%nat -> y <> s -> v <> sqrt (sse y s / INR (length y))).
Proof. exact C30_lemma. Qed.
Print Assumptions C30_rmse.

Example C30_example : eval_per_query (N:=QN) stable_argsort (RMSE (N:=QN) None) [3; 0; 4; 1]%Q [0; 0; 0; 1]%Q = Ok 5%Q.
Proof. vmr. Qed.
