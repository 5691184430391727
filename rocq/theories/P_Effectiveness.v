(** Effectiveness analyses: C53-C57, C68-C70. *)
From Coq Require Import List ZArith QArith Reals Lra Lia Bool Permutation Sorted.
From Verif Require Import Base Lists Num M_Dataset S_Dataset M_Metrics S_Metrics S_Metrics M_NDCG M_Ensemble S_Ensemble L_Ensemble L_Ensemble2 M_Effectiveness S_Effectiveness
  L_Effectiveness L_Effectiveness2 L_Effectiveness3 L_Effectiveness4 L_Effectiveness5 L_Effectiveness6 L_Effectiveness7 L_Effectiveness8 L_Effectiveness9.
Import ListNotations.
Local Open Scope Z_scope.
Ltac vmr := repeat first [split; [vm_compute; reflexivity|] | vm_compute; reflexivity].

(** Three stumps, of which the second model has two; two data sets of four rows. *)
Definition stumps3 : ensemble QN :=
  mkEns (N:=QN) 3 9 [0; 3; 6] [1; 1; 1]%Q [1; -1; -1; 4; -1; -1; 7; -1; -1] [2; -1; -1; 5; -1; -1; 8; -1; -1]
    [1; 0; 1; 2; 0; 2; 3; 0; -1]%Q [0; -1; -1; 0; -1; -1; 0; -1; -1].
Definition stumps2 : ensemble QN :=
  mkEns (N:=QN) 2 6 [0; 3] [1; 1]%Q [1; -1; -1; 4; -1; -1] [2; -1; -1; 5; -1; -1] [1; 0; 1; 2; 0; 2]%Q [0; -1; -1; 0; -1; -1].
Definition xst : list (model QN) := [mkModel stumps3 1%Q None []; mkModel stumps2 1%Q None []].
Definition xds : list (obj (N:=QN)) :=
  [(0%nat, mkDataset [[1]; [2]; [3]; [4]]%Q 1 [0; 1; 0; 1]%Q [7; 9] [0; 2; 4]%nat); (1%nat, mkDataset [[4]; [2]; [1]; [3]]%Q 1 [1; 1; 0; 0]%Q [5] [0; 4]%nat)].
Definition qsum (l : list QN) : QN := fold_left (fun a b => Qred (a + b)) l 0%Q.
Definition truncate (q : QN) : Z := Z.quot (Qnum q) (Zpos (Qden q)).
Definition xdigest (_ : list (list QN)) (y : list QN) (_ : list Z) : Z := truncate (hd 0%Q y).
Definition p1 : evaluator (N:=QN) := metric_eval (N:=QN) (eval_per_query stable_argsort (Precision (N:=QN) (Some 1) 1%Q)).
Definition p2 : evaluator (N:=QN) := metric_eval (N:=QN) (eval_per_query stable_argsort (Precision (N:=QN) (Some 2) 1%Q)).
Definition p3 : evaluator (N:=QN) := metric_eval (N:=QN) (eval_per_query stable_argsort (Precision (N:=QN) (Some 3) 1%Q)).
Definition value {S A} (r : res (S * A)) : res A := do p <- r; Ok (snd p).

(** The hypotheses shared by the theorems below: a model with two stumps and two data sets. *)
Definition rst : list (model RE) :=
  [mkModel (N:=RE) (mkEns (N:=RE) 2 6 [0; 3] [1; 2]%R [1; -1; -1; 4; -1; -1] [2; -1; -1; 5; -1; -1] [1; 0; 1; 2; 0; 2]%R [0; -1; -1; 0; -1; -1]) 1%R None []].
Definition rsh : list shape := [([Node 0 0 1%R (Leaf 1 0%R) (Leaf 2 1%R); Node 3 0 2%R (Leaf 4 0%R) (Leaf 5 2%R)], [1; 2]%R)].
Definition rds : list (obj (N:=RE)) :=
  [(0%nat, mkDataset (V:=RE) [[1]; [2]; [3]]%R 1 [0; 1; 0]%R [7; 9] [0; 2; 3]%nat); (1%nat, mkDataset (V:=RE) [[3]; [1]; [2]]%R 1 [1; 1; 0]%R [5; 6] [0; 1; 3]%nat)].
Example ready_example : forall digest, ready digest rst rsh rds.
Proof.
  intros digest. split; [|split].
  - constructor; [|constructor]. split; [reflexivity|]. split; [|split; [discriminate|repeat constructor; cbn; lia]].
    repeat (split; [reflexivity|]). split.
    + repeat (split; [reflexivity|]). repeat constructor.
    + split; [|repeat split; reflexivity]. cbn [consecutive rsh mark fst]. split; [reflexivity|]. split; [apply Permutation_refl|]. split; [reflexivity|]. split; [apply Permutation_refl|exact I].
  - repeat constructor.
  - intros k k' [<-|[<-|[]]] [<-|[<-|[]]]; split; intros H; try reflexivity; try discriminate; repeat split; reflexivity.
Qed.

(** C57 *)
Theorem C57_entries_are_independent : forall (rowsum : list RE -> RE) digest, (forall l, rowsum l = Rtotal l) ->
  forall st sh ds, ready digest st sh ds -> forall ms metrics cache st' data,
  model_performance (N:=RE) rowsum digest st ds ms metrics cache = Ok (st', data) ->
  length data = length ds /\
  forall a b c o i f, nth_error ds a = Some o -> nth_error ms b = Some i -> nth_error metrics c = Some f ->
    exists m s v, nth_error st i = Some m /\ nth_error sh i = Some s /\
      f (snd o) (scores_of m s (snd o)) = Ok v /\ at3 data a b c = Some (fst v).
Proof. exact C57_real_lemma. Qed.
Print Assumptions C57_entries_are_independent.
Theorem C57_without_cache_any_arithmetic : forall (N : Num.num) rowsum digest (st : list (model N)) ds ms (metrics : list (evaluator (N:=N))),
  model_performance rowsum digest st ds ms metrics false
  = (do data <- mapM (fun o => mapM (fun i =>
        do a <- alone rowsum digest st i o false;
        do y <- y_pred a;
        mapM (fun f : evaluator => do v <- f (snd o) y; Ok (nf32 (fst v))) metrics) ms) ds; Ok (st, data)).
Proof. exact (@C57_uncached_lemma). Qed.
Print Assumptions C57_without_cache_any_arithmetic.
Theorem C57_exceptions : forall (rowsum : list RE -> RE) digest, (forall l, rowsum l = Rtotal l) ->
  forall st sh ds, ready digest st sh ds -> forall ms metrics cache e, Forall (fun i => (i < length st)%nat) ms ->
  model_performance (N:=RE) rowsum digest st ds ms metrics cache = Err e ->
  exists o i m s, In o ds /\ In i ms /\ nth_error st i = Some m /\ nth_error sh i = Some s /\
    ((too_wide (ds_nf (snd o)) (fst s) /\ e = RuntimeError) \/ exists f, In f metrics /\ f (snd o) (scores_of m s (snd o)) = Err e).
Proof. exact C57_raises_lemma. Qed.
Print Assumptions C57_exceptions.
Theorem C57_one_failure_is_enough : forall (rowsum : list RE -> RE) digest, (forall l, rowsum l = Rtotal l) ->
  forall st sh ds, ready digest st sh ds -> forall ms metrics cache o i m s, In o ds -> In i ms -> nth_error st i = Some m -> nth_error sh i = Some s ->
  (too_wide (ds_nf (snd o)) (fst s) \/ exists f e, In f metrics /\ f (snd o) (scores_of m s (snd o)) = Err e) ->
  exists e, model_performance (N:=RE) rowsum digest st ds ms metrics cache = Err e.
Proof. exact C57_succeeds_lemma. Qed.
Print Assumptions C57_one_failure_is_enough.
Example C57_example :
  value (model_performance qsum xdigest xst xds [0; 1; 0]%nat [p1; p2; p3] true)
  = Ok [[[(1#2); (1#2); (1#2)]; [1; (1#2); (1#2)]; [(1#2); (1#2); (1#2)]]; [[0; (1#2); (2#3)]; [0; (1#2); (2#3)]; [0; (1#2); (2#3)]]]%Q.
Proof. vmr. Qed.

(** C53 *)
Theorem C53_first_trees : forall (rowsum : list RE -> RE) digest, (forall l, rowsum l = Rtotal l) ->
  forall st sh ds, ready digest st sh ds -> forall ms metrics step cache st' ks data, Forall (fun i => (i < length st)%nat) ms -> 1 <= step ->
  tree_wise_performance (N:=RE) rowsum digest st ds ms metrics step cache = Ok (st', (ks, data)) ->
  Z.of_nat (length ks) = (largest sh ms + step - 1) / step /\
  (forall q k, nth_error ks q = Some k -> k = Z.min ((Z.of_nat q + 1) * step) (largest sh ms)) /\
  length data = length ds /\
  forall a b o i, nth_error ds a = Some o -> nth_error ms b = Some i ->
    exists m s cells, nth_error st i = Some m /\ nth_error sh i = Some s /\ at2 data a b = Some cells /\ length cells = length ks /\
      forall q k, nth_error ks q = Some k ->
        (Z.of_nat q * step < Z.of_nat (length (fst s)) ->
           exists row, nth_error cells q = Some (Some row) /\ length row = length metrics /\
             forall c f, nth_error metrics c = Some f ->
               exists v, f (snd o) (scores_first (Nat.min (Z.to_nat k) (length (fst s))) m s (snd o)) = Ok v /\ nth_error row c = Some (fst v)) /\
        (Z.of_nat (length (fst s)) <= Z.of_nat q * step -> nth_error cells q = Some None).
Proof. exact C53_values_lemma. Qed.
Print Assumptions C53_first_trees.
Theorem C53_step_too_large : forall (digest : list (list RE) -> list RE -> list Z -> Z) st sh ds, ready digest st sh ds ->
  forall rowsum ms metrics step cache, Forall (fun i => (i < length st)%nat) ms -> 1 <= step -> largest sh ms < step ->
  tree_wise_performance (N:=RE) rowsum digest st ds ms metrics step cache = Err IndexError.
Proof. intros digest st sh ds Hr rowsum. apply (C53_raises_lemma rowsum digest st sh ds Hr). Qed.
Print Assumptions C53_step_too_large.
(** One model smaller than the step is enough. *)
Theorem C53_small_model : forall (rowsum : list RE -> RE) digest, (forall l, rowsum l = Rtotal l) ->
  forall st sh ds, ready digest st sh ds -> forall ms metrics step cache i, Forall (fun i => (i < length st)%nat) ms -> 1 <= step ->
  In i ms -> trees_in sh i < step -> ds <> [] ->
  exists e, tree_wise_performance (N:=RE) rowsum digest st ds ms metrics step cache = Err e.
Proof. exact C53_small_lemma. Qed.
Print Assumptions C53_small_model.
Theorem C53_succeeds : forall (rowsum : list RE -> RE) digest, (forall l, rowsum l = Rtotal l) ->
  forall st sh ds, ready digest st sh ds -> forall ms metrics step cache, Forall (fun i => (i < length st)%nat) ms -> ms <> [] -> 1 <= step ->
  (forall i, In i ms -> step <= trees_in sh i) ->
  (forall i s o, In i ms -> nth_error sh i = Some s -> In o ds -> ~ too_wide (ds_nf (snd o)) (fst s)) ->
  (forall f d y, In f metrics -> exists v, f d y = Ok v) ->
  exists r, tree_wise_performance (N:=RE) rowsum digest st ds ms metrics step cache = Ok r.
Proof. exact C53_total_lemma. Qed.
Print Assumptions C53_succeeds.
Example C53_example :
  value (tree_wise_performance qsum xdigest xst xds [0; 1]%nat [p1; p2] 2 false)
  = Ok ([2; 3], [[[Some [1; (1#2)]; Some [(1#2); (1#2)]]; [Some [1; (1#2)]; None]]; [[Some [0; (1#2)]; Some [0; (1#2)]]; [Some [0; (1#2)]; None]]]%Q) /\
  value (tree_wise_performance qsum xdigest xst xds [0; 1]%nat [p1; p2] 4 false) = Err IndexError /\
  value (tree_wise_performance qsum xdigest xst xds [0; 1]%nat [p1; p2] 3 false) = Err IndexError.
Proof. vmr. Qed.

(** C54 *)
Theorem C54_query_curves : forall (rowsum : list RE -> RE) digest, (forall l, rowsum l = Rtotal l) ->
  forall st sh ds, ready digest st sh ds -> forall ms metrics bins start stop cache st' coords data,
  query_wise_performance (N:=RE) rowsum digest st ds ms metrics bins start stop cache = Ok (st', (coords, data)) ->
  exists lo hi b,
    bound_of start (least (query_value st sh ds ms metrics)) lo /\ bound_of stop (greatest (query_value st sh ds ms metrics)) hi /\ bins_of bins ds b /\
    ((0 < b)%nat -> (lo <= hi)%R) /\
    length data = length ds /\
    (forall a j c o i f, nth_error ds a = Some o -> nth_error ms j = Some i -> nth_error metrics c = Some f ->
       exists v curve, evaluated st sh o i f v /\ snd v <> [] /\ at3 data a j c = Some curve /\ is_curve lo hi b (snd v) curve /\
         grows_in_unit curve /\ (start = None -> stop = None -> (0 < b)%nat -> nth_error curve (b - 1) = Some (Some 1%R))) /\
    (forall q, (q < b)%nat -> nth_error coords q = Some (lo + INR q * (hi - lo) / INR b + 1 / INR b)%R).
Proof. exact C54_queries_lemma. Qed.
Print Assumptions C54_query_curves.
Theorem C54_document_curves : forall (rowsum : list RE -> RE) digest, (forall l, rowsum l = Rtotal l) ->
  forall st sh ds, ready digest st sh ds -> forall ms bins start stop cache st' labels coords data,
  document_graded_relevance (N:=RE) rowsum digest st ds ms bins start stop cache = Ok (st', (labels, coords, data)) ->
  exists lo hi,
    bound_of start (least (document_score st sh ds ms)) lo /\ bound_of stop (greatest (document_score st sh ds ms)) hi /\ 0 < bins /\
    increasing labels /\ (forall x, In x labels <-> exists o, In o ds /\ In x (ds_y (snd o))) /\ (labels <> [] -> (lo <= hi)%R) /\
    length data = length ds /\
    (forall a j c o i l, nth_error ds a = Some o -> nth_error ms j = Some i -> nth_error labels c = Some l ->
       exists m s curve, nth_error st i = Some m /\ nth_error sh i = Some s /\ at3 data a j c = Some curve /\
         is_curve lo hi (Z.to_nat bins) (label_members l (ds_y (snd o)) (scores_of m s (snd o))) curve /\ grows_in_unit curve /\
         (start = None -> stop = None -> label_members l (ds_y (snd o)) (scores_of m s (snd o)) <> [] -> nth_error curve (Z.to_nat bins - 1) = Some (Some 1%R))) /\
    (forall q, (q < Z.to_nat bins)%nat -> nth_error coords q = Some (lo + INR q * (hi - lo) / INR (Z.to_nat bins) + 1 / INR (Z.to_nat bins))%R).
Proof. exact C54_documents_lemma. Qed.
Print Assumptions C54_document_curves.
(** When no value lies below the range, the values below it need not be excluded. *)
Theorem C54_fraction_below : forall lo hi b q u, (forall v, In v u -> (lo <= v)%R) ->
  fraction (inside lo hi b q) u = fraction (fun v => if (S q =? b)%nat then Rleb v hi else Rltb v (upper_edge lo hi b q)) u.
Proof. exact inside_all. Qed.
Print Assumptions C54_fraction_below.
Example C54_example :
  value (query_wise_performance qsum xdigest xst xds [0; 1]%nat [p1; p2] (Some 4) None None false)
  = Ok ([(1#4); (1#2); (3#4); 1]%Q, [[[[Some (1#2); Some (1#2); Some (1#2); Some 1]; [Some 0; Some 0; Some 1; Some 1]]; [[Some 0; Some 0; Some 0; Some 1]; [Some 0; Some 0; Some 1; Some 1]]];
       [[[Some 1; Some 1; Some 1; Some 1]; [Some 0; Some 0; Some 1; Some 1]]; [[Some 1; Some 1; Some 1; Some 1]; [Some 0; Some 0; Some 1; Some 1]]]]%Q) /\
  value (document_graded_relevance qsum xdigest xst xds [0]%nat 3 None None false)
  = Ok ([0; 1], [(1#3); (4#3); (7#3)], [[[[Some (1#2); Some (1#2); Some 1]; [Some 0; Some (1#2); Some 1]]]; [[[Some (1#2); Some (1#2); Some 1]; [Some 0; Some (1#2); Some 1]]]])%Q.
Proof. vmr. Qed.
(** Restricting the range: the values below it are dropped from the count but not from the total. *)
Theorem C54_restricted_range_refuted :
  value (query_wise_performance qsum xdigest xst (firstn 1 xds) [0]%nat [p1] (Some 2) (Some (1#2)%Q) (Some 1%Q) false) = Ok ([1; (5#4)], [[[[Some 0; Some (1#2)]]]])%Q.
Proof. vmr. Qed.

(** C68 *)
Theorem C68_bin_coordinates : forall lo hi b q, (0 < b)%nat ->
  ((lo + INR q * (hi - lo) / INR b + 1 / INR b)%R = upper_edge lo hi b q <-> (hi - lo)%R = 1%R).
Proof.
  intros lo hi b q Hb. unfold upper_edge. rewrite S_INR. assert (INR b <> 0)%R by (apply not_0_INR; lia). split.
  - intros E. assert (E2 : ((1 - (hi - lo)) / INR b = 0)%R) by (unfold Rdiv in *; lra). apply (f_equal (fun x => x * INR b)%R) in E2. unfold Rdiv in E2. rewrite Rmult_assoc, Rinv_l, Rmult_0_l in E2 by assumption. lra.
  - intros ->. field. assumption.
Qed.
Print Assumptions C68_bin_coordinates.
(** Scores in [0, 3]: the three bins end at 1, 2 and 3, the coordinates are 1/3, 4/3 and 7/3. *)
Theorem C68_other_widths_refuted : exists labels data,
  value (document_graded_relevance qsum xdigest xst xds [0]%nat 3 None None false) = Ok (labels, [(1#3); (4#3); (7#3)]%Q, data).
Proof. eexists. eexists. vm_compute. reflexivity. Qed.

(** C69 *)
Theorem C69_sizes_must_agree : forall (rowsum : list RE -> RE) digest st ds ms bins start stop cache o o',
  In o ds -> In o' ds -> n_instances (snd o) <> n_instances (snd o') ->
  (exists e, document_graded_relevance (N:=RE) rowsum digest st ds ms bins start stop cache = Err e) /\
  forall to_int skip, rank_confusion_matrix (N:=RE) rowsum digest to_int st ds ms skip cache = Err ValueError.
Proof. exact C69_lemma. Qed.
Print Assumptions C69_sizes_must_agree.
Definition xother : obj (N:=QN) := (2%nat, mkDataset [[1]; [2]]%Q 1 [0; 1]%Q [7] [0; 2]%nat).
Example C69_example :
  value (document_graded_relevance qsum xdigest xst (xother :: xds) [0]%nat 3 None None false) = Err ValueError /\
  value (rank_confusion_matrix qsum xdigest truncate xst (xother :: xds) [0]%nat false false) = Err ValueError.
Proof. vmr. Qed.

(** C55 *)
Theorem C55_class_means : forall (rowsum : list RE -> RE) digest, (forall l, rowsum l = Rtotal l) ->
  forall st sh ds, ready digest st sh ds -> forall ms metrics classes cache st' all data,
  query_class_performance (N:=RE) rowsum digest st ds ms metrics classes cache = Ok (st', (all, data)) ->
  StronglySorted Z.lt all /\ (forall c, In c all <-> exists cls, In cls classes /\ In c cls) /\ length data = length ds /\
  forall a b j o i f, nth_error ds a = Some o -> nth_error ms b = Some i -> nth_error metrics j = Some f ->
    exists v vals, evaluated st sh o i f v /\ at3 data a b j = Some vals /\ length vals = length all /\
      forall k c, nth_error all k = Some c -> exists cls, nth_error classes a = Some cls /\
        nth_error vals k = Some (match members c cls (snd v) with [] => None | l => Some (mean l) end).
Proof. exact C55_means_lemma. Qed.
Print Assumptions C55_class_means.
Theorem C55_classes_recombine : forall (rowsum : list RE -> RE) digest, (forall l, rowsum l = Rtotal l) ->
  forall st sh ds, ready digest st sh ds -> forall ms metrics classes cache st' all data a b j o i f cls,
  query_class_performance (N:=RE) rowsum digest st ds ms metrics classes cache = Ok (st', (all, data)) ->
  nth_error ds a = Some o -> nth_error ms b = Some i -> nth_error metrics j = Some f -> nth_error classes a = Some cls ->
  exists v vals, evaluated st sh o i f v /\ at3 data a b j = Some vals /\
    (length cls = length (snd v) ->
     Rtotal (map (fun p => INR (length (members (fst p) cls (snd v))) * value_or_zero (snd p)) (combine all vals)) = Rtotal (snd v))%R.
Proof. exact C55_recombine_lemma. Qed.
Print Assumptions C55_classes_recombine.
Example C55_example :
  value (query_class_performance qsum xdigest xst xds [0]%nat [p1; p3] [[4; 2]; [2]] false)
  = Ok ([2; 4], [[[[Some 0; Some 1]; [Some (1#2); Some (1#2)]]]; [[[Some 0; None]; [Some (2#3); None]]]]%Q) /\
  value (query_class_performance qsum xdigest xst xds [0]%nat [p1] [[4; 2; 2]; [2]] false) = Err IndexError.
Proof. vmr. Qed.

(** C70 *)
Theorem C70_average_contributions : forall (rowsum : list RE -> RE) digest, (forall l, rowsum l = Rtotal l) ->
  forall st sh ds, ready digest st sh ds -> forall ms cache st' data, Forall (fun i => (i < length st)%nat) ms ->
  tree_wise_average_contribution (N:=RE) rowsum digest st ds ms cache = Ok (st', data) ->
  length data = length ds /\
  forall a b o i, nth_error ds a = Some o -> nth_error ms b = Some i ->
    exists m s cells, nth_error st i = Some m /\ nth_error sh i = Some s /\ at2 data a b = Some cells /\ Z.of_nat (length cells) = largest sh ms /\
      forall t, (t < length cells)%nat ->
        nth_error cells t = Some (if (t <? length (fst s))%nat && negb (length (ds_X (snd o)) =? 0)%nat
                                  then Some (mean (map (fun row => Rabs (value_or_zero (tree_part m s t row))) (ds_X (snd o)))) else None).
Proof. exact C70_lemma. Qed.
Print Assumptions C70_average_contributions.
Example C70_example :
  value (tree_wise_average_contribution qsum xdigest xst xds [0; 1]%nat true)
  = Ok [[[Some (3#4); Some 1; Some (1#4)]; [Some (3#4); Some 1; None]]; [[Some (3#4); Some 1; Some (1#4)]; [Some (3#4); Some 1; None]]]%Q.
Proof. vmr. Qed.

(** C56 *)
Theorem C56_pairs_are_counted : forall (rowsum : list RE -> RE) digest, (forall l, rowsum l = Rtotal l) ->
  forall st sh ds, ready digest st sh ds -> forall (to_int : RE -> Z) L, (forall k, (k < L)%nat -> to_int (INR k) = Z.of_nat k) -> integer_labels ds L ->
  forall ms skip cache st' labels data,
  rank_confusion_matrix (N:=RE) rowsum digest to_int st ds ms skip cache = Ok (st', (labels, data)) ->
  labels = zrange 0 (Z.of_nat L) /\ length data = length ds /\
  forall x j o i nf X y ids, nth_error ds x = Some o -> nth_error ms j = Some i -> built nf X y ids (snd o) ->
    exists m s M, nth_error st i = Some m /\ nth_error sh i = Some s /\ at2 data x j = Some M /\ square L M /\
      (forall a b, (a < L)%nat -> (b < L)%nat -> at2 M a b = Some (i32 (confusion_entry ids (ds_y (snd o)) (scores_of m s (snd o)) skip a b))) /\
      (Z.of_nat (length (unordered_pairs ids)) < 2 ^ 31 ->
         matrix_total M = number_of (fun p => negb (skip && same_label (ds_y (snd o)) (fst p) (snd p))) (unordered_pairs ids) /\
         forall a b, (a < L)%nat -> (b < L)%nat -> a <> b -> exists u v, at2 M a b = Some u /\ at2 M b a = Some v /\
           u + v = number_of (fun p => has_label (ds_y (snd o)) a (fst p) && has_label (ds_y (snd o)) b (snd p) || has_label (ds_y (snd o)) b (fst p) && has_label (ds_y (snd o)) a (snd p)) (unordered_pairs ids) /\
           (no_ties ids (scores_of m s (snd o)) ->
             u = number_of (fun p => has_label (ds_y (snd o)) a (fst p) && has_label (ds_y (snd o)) b (snd p) && scored_below (scores_of m s (snd o)) (fst p) (snd p)) (ordered_pairs ids))).
Proof. exact C56_entries_lemma. Qed.
Print Assumptions C56_pairs_are_counted.
Theorem C56_succeeds : forall (rowsum : list RE -> RE) digest, (forall l, rowsum l = Rtotal l) ->
  forall st sh ds, ready digest st sh ds -> forall (to_int : RE -> Z) L, (forall k, (k < L)%nat -> to_int (INR k) = Z.of_nat k) -> integer_labels ds L ->
  forall ms skip cache, (forall o o', In o ds -> In o' ds -> n_instances (snd o) = n_instances (snd o')) ->
  (forall o, In o ds -> exists nf X y ids, built nf X y ids (snd o)) ->
  (forall i, In i ms -> exists s, nth_error sh i = Some s /\ forall o, In o ds -> ~ too_wide (ds_nf (snd o)) (fst s)) ->
  exists r, rank_confusion_matrix (N:=RE) rowsum digest to_int st ds ms skip cache = Ok r.
Proof. exact C56_succeeds_lemma. Qed.
Print Assumptions C56_succeeds.
Example C56_hypotheses : integer_labels rds 2 /\ (exists nf X y ids, built nf X y ids (snd (nth 0 rds (hd (0%nat, mkDataset (V:=RE) [] 0 [] [] []) rds)))).
Proof.
  split.
  - intros x. split.
    + intros [o [[<-|[<-|[]]] Hx]]; cbn [snd ds_y] in Hx; repeat destruct Hx as [<-|Hx]; try destruct Hx; solve [exists 0%nat; split; [lia|reflexivity] | exists 1%nat; split; [lia|reflexivity]].
    + intros [k [Hk ->]]. exists (nth 0 rds (hd (0%nat, mkDataset (V:=RE) [] 0 [] [] []) rds)). split; [left; reflexivity|]. destruct k as [|[|k]]; [left; reflexivity|right; left; reflexivity|lia].
  - exists 1%nat, [[1]; [2]; [3]]%R, [0; 1; 0]%R, [7; 7; 9]. repeat split; try reflexivity.
    + intros i j k a Hij. destruct i as [|[|[|[|i]]]], j as [|[|[|[|j]]]], k as [|[|[|[|k]]]]; cbn; intros; try discriminate; try lia; congruence.
    + repeat constructor; lia.
Qed.
(** The first row of each matrix: rows of label 0 scored below rows of label 0, of label 1. *)
Example C56_example :
  value (rank_confusion_matrix qsum xdigest truncate xst xds [0]%nat false false) = Ok ([0; 1], [[[[2; 1]; [1; 2]]]; [[[3; 2]; [2; 3]]]]) /\
  value (rank_confusion_matrix qsum xdigest truncate xst xds [0]%nat true false) = Ok ([0; 1], [[[[0; 1]; [1; 0]]]; [[[0; 2]; [2; 0]]]]).
Proof. vmr. Qed.
(** Labels that are not the integers from 0: an index is out of bounds, a negative label is
    counted in the last row, or different labels share a row. *)
Definition xlabels (l : list QN) : list (obj (N:=QN)) := [(0%nat, mkDataset [[1]; [2]; [3]; [4]]%Q 1 l [7; 9] [0; 2; 4]%nat)].
Theorem C56_other_labels_refuted :
  value (rank_confusion_matrix qsum xdigest truncate xst (xlabels [1; 2; 1; 2]%Q) [0]%nat false false) = Err IndexError /\
  value (rank_confusion_matrix qsum xdigest truncate xst (xlabels [0; -1; 0; -1]%Q) [0]%nat false false) = Ok ([-1; 0], [[[[2; 1]; [1; 2]]]]) /\
  value (rank_confusion_matrix qsum xdigest truncate xst (xlabels [0; (1#2); 0; (1#2)]%Q) [0]%nat true false) = Ok ([0; 0], [[[[2; 0]; [0; 0]]]]).
Proof. vmr. Qed.
