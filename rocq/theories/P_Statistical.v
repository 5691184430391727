(** Property theorems about the statistical analyses: C58, C59, C60, C72. *)
From Coq Require Import List ZArith QArith Bool Reals Lia Lra Permutation.
From Verif Require Import Base Num M_Dataset M_NDCG S_Dataset L_Dataset3 M_Ensemble S_Ensemble M_Effectiveness S_Effectiveness M_Statistical S_Statistical L_Statistical L_Statistical3 L_Statistical4.
From Verif Require P_Effectiveness.
Import ListNotations.
Local Open Scope Z_scope.
Ltac vmr := vm_compute; reflexivity.

(** C58 *)
Theorem C58_p_values_meaning : forall (sum : list R -> R) choice a b n, (forall l, sum l = Rtotal l) -> 0 < n -> length a = length b -> a <> [] ->
  let u := better a b in let v := worse a b in
  randomization (N:=RE) sum choice a b n = Ok (one_sided choice (Z.to_nat n) u v, two_sided choice (Z.to_nat n) u v).
Proof. exact C58_meaning_lemma. Qed.
Print Assumptions C58_p_values_meaning.
Theorem C58_p_values_in_unit_interval : forall r (sum : list R -> R) choice a b n, good_rounding r n -> 0 < n -> length a = length b ->
  exists p1 p2, randomization (N:=RF r) sum choice a b n = Ok (p1, p2) /\ (0 <= p1 <= p2)%R /\ (p2 <= 1)%R.
Proof. exact C58_bounds_lemma. Qed.
Print Assumptions C58_p_values_in_unit_interval.
Theorem C58_identical_systems : forall r (sum : list R -> R) choice a n, good_rounding r n -> 0 < n -> a <> [] ->
  randomization (N:=RF r) sum choice a a n = Ok (1, 1)%R.
Proof. exact C58_identical_lemma. Qed.
Print Assumptions C58_identical_systems.
Theorem C58_swapping_the_systems : forall r (sum : list R -> R) choice a b n, length a = length b -> a <> [] ->
  computed_mean r sum a <> computed_mean r sum b -> randomization (N:=RF r) sum choice a b n = randomization (N:=RF r) sum choice b a n.
Proof. exact C58_swap_lemma. Qed.
Print Assumptions C58_swapping_the_systems.
Theorem C58_different_lengths : forall (N : Num.num) (sum : list N -> N) choice a b n, 0 < n -> length a <> length b ->
  randomization sum choice a b n = Err IndexError.
Proof. exact @C58_lengths_lemma. Qed.
Print Assumptions C58_different_lengths.
Theorem C58_no_permutations : forall (N : Num.num) (sum : list N -> N) choice a b, randomization sum choice a b 0 = Err ZeroDivisionError.
Proof. exact @C58_zero_lemma. Qed.
Print Assumptions C58_no_permutations.
(** With equal means the order of the systems matters. *)
Theorem C58_swapping_equal_means_refuted : exists choice (a b : list Q) n, 0 < n /\ length a = length b /\ a <> [] /\
  randomization (N:=QN) nsum choice a b n <> randomization (N:=QN) nsum choice b a n.
Proof. exists (fun _ j => (j =? 0)%nat), [1; 0]%Q, [0; 1]%Q, 1. repeat split; discriminate. Qed.
Print Assumptions C58_swapping_equal_means_refuted.
(** Without queries identical systems have p-value 0. *)
Theorem C58_identical_without_queries_refuted : exists choice n, 0 < n /\ randomization (N:=QN) nsum choice [] [] n = Ok (0, 0)%Q.
Proof. exists (fun _ _ => true), 3. split; [reflexivity|vmr]. Qed.
Print Assumptions C58_identical_without_queries_refuted.
Definition xchoice (i j : nat) : bool := Nat.testbit i j.
Example C58_example : randomization (N:=QN) nsum xchoice [0; 1#2; 1; 0]%Q [1; 1#4; 1; 1#2]%Q 16 = Ok (1#4, 1#2)%Q /\
  randomization (N:=QN) nsum xchoice [1; 1#4; 1; 1#2]%Q [0; 1#2; 1; 0]%Q 16 = Ok (1#4, 1#2)%Q.
Proof. split; vmr. Qed.
Example C58_identical_example : randomization (N:=QN) nsum xchoice [0; 1#2; 1]%Q [0; 1#2; 1]%Q 5 = Ok (1, 1)%Q.
Proof. vmr. Qed.
(** A rounding that does something: downwards to an integer. *)
Example rounding_example : forall n, good_rounding (fun x => IZR (up x - 1)) n /\ (IZR (up (5 / 2) - 1) = 2)%R.
Proof.
  intros n. assert (U : forall x z, (IZR z <= x < IZR z + 1)%R -> up x - 1 = z).
  { intros x z H. pose proof (archimed x) as [A B]. assert (up x = z + 1); [|lia]. symmetry. apply tech_up; rewrite plus_IZR; change (IZR 1) with 1%R; lra. }
  split; [split|].
  - intros x y H. apply IZR_le. pose proof (archimed x) as [A B]. pose proof (archimed y) as [C D]. assert (up x < up y + 1); [|lia]. apply lt_IZR. rewrite plus_IZR. change (IZR 1) with 1%R. lra.
  - intros z _. f_equal. apply U. lra.
  - f_equal. apply U. change (IZR 2) with 2%R. lra.
Qed.

(** C59 *)
Theorem C59_folds : forall (N : Num.num) (d : dataset N) nf X y ids, built nf X y ids d ->
  forall k shuffled, 0 < k -> (0 < n_queries d)%nat -> Permutation shuffled (seq 0 (n_queries d)) ->
  forall notebook algo made, exists Ts calls, fst (kfold_scoring notebook algo d k shuffled made) = made ++ calls /\ cut_in k d Ts /\
  (length calls <= length Ts)%nat /\ forall j c, nth_error calls j = Some c -> exists T, nth_error Ts j = Some T /\ fold_of d T c.
Proof. exact @C59_calls_lemma. Qed.
Print Assumptions C59_folds.
Theorem C59_every_row_scored_once : forall (N : Num.num) (d : dataset N) nf X y ids, built nf X y ids d ->
  forall k shuffled, 0 < k -> (0 < n_queries d)%nat -> Permutation shuffled (seq 0 (n_queries d)) ->
  forall notebook algo made, answers_all algo -> exists Ts calls scores,
  kfold_scoring notebook algo d k shuffled made = (made ++ calls, if notebook then Ok scores else Err UnboundLocalError) /\
  cut_in k d Ts /\ length calls = length Ts /\ length scores = length ids /\
  forall j T, nth_error Ts j = Some T -> exists c v, nth_error calls j = Some c /\ fold_of d T c /\
    algo (made ++ firstn j calls) c = Ok v /\ scores_in ids T scores = map nf32 v.
Proof. exact @C59_scores_lemma. Qed.
Print Assumptions C59_every_row_scored_once.
Theorem C59_outside_a_notebook : forall (N : Num.num) algo (d : dataset N) k shuffled made, exists e, snd (kfold_scoring false algo d k shuffled made) = Err e.
Proof. exact @C59_outside_lemma. Qed.
Print Assumptions C59_outside_a_notebook.
Theorem C59_bias_variance_outside_a_notebook : forall (N : Num.num) (sum : list N -> N) shuffles ds algos metrics L k made, algos <> [] ->
  exists e, bias_variance sum false shuffles ds algos metrics L k made = Err e.
Proof. exact @C59_bias_outside_lemma. Qed.
Print Assumptions C59_bias_variance_outside_a_notebook.
Theorem C59_something_to_learn_from : forall (V : Type) (d : dataset V) k Ts T c, 2 <= k -> (2 <= n_queries d)%nat -> NoDup (ds_qids d) ->
  cut_in k d Ts -> In T Ts -> fold_of d T c -> c_sizes c <> [].
Proof. exact @C59_train_lemma. Qed.
Print Assumptions C59_something_to_learn_from.
Theorem C59_no_queries : forall (N : Num.num) notebook algo (d : dataset N) k shuffled made, k <> 0 -> n_queries d = 0%nat ->
  kfold_scoring notebook algo d k shuffled made = (made, Err ValueError).
Proof. exact @C59_no_query_lemma. Qed.
Print Assumptions C59_no_queries.

Definition xids : list Z := [4; 4; 9; 2; 2; 2; 7; 5].
Definition xX : list (list Q) := [[1]; [2]; [3]; [4]; [5]; [6]; [7]; [8]]%Q.
Definition xy : list Q := [0; 1; 0; 2; 1; 0; 3; 1]%Q.
Definition xd : dataset QN := mkDataset (V:=QN) xX 1 xy [4; 9; 2; 7; 5] [0; 2; 3; 6; 7; 8]%nat.
Example xd_built : built (V:=QN) 1 xX xy xids xd.
Proof. apply built_intro; vmr. Qed.
(** Scores: the feature of the row plus 100 times the number of training rows. *)
Definition xalgo : algorithm QN := fun _ c => Ok (map (fun row => Qred (hd 0 row + 100 * inject_Z (Z.of_nat (length (c_y c))))%Q) (c_test c)).
Example xalgo_answers : answers_all xalgo.
Proof. intros made c. eexists. split; [reflexivity|]. apply map_length. Qed.
Example C59_example : kfold_scoring true xalgo xd 2 [3; 0; 4; 1; 2]%nat []
  = ([mkCall [[3]; [4]; [5]; [6]]%Q [0; 2; 1; 0]%Q [1; 3]%nat [[1]; [2]; [7]; [8]]%Q;
      mkCall [[1]; [2]; [7]; [8]]%Q [0; 1; 3; 1]%Q [2; 1; 1]%nat [[3]; [4]; [5]; [6]]%Q],
     Ok [401; 402; 403; 404; 405; 406; 407; 408]%Q) /\
  snd (kfold_scoring false xalgo xd 2 [3; 0; 4; 1; 2]%nat []) = Err UnboundLocalError.
Proof. split; vmr. Qed.
(** Four folds are asked for, three are made. *)
Example C59_fewer_folds : length (fst (kfold_scoring true xalgo xd 4 [3; 0; 4; 1; 2]%nat [])) = 3%nat.
Proof. vmr. Qed.
(** A single query: the algorithm is trained on nothing. *)
Theorem C59_single_query_refuted : exists nf X y ids (d : dataset QN) k shuffled, built nf X y ids d /\ 2 <= k /\ Permutation shuffled (seq 0 (n_queries d)) /\
  map (fun c => c_y c) (fst (kfold_scoring true xalgo d k shuffled [])) = [[]].
Proof.
  exists 1%nat, [[1]; [2]]%Q, [0; 1]%Q, [6; 6], (mkDataset (V:=QN) [[1]; [2]]%Q 1 [0; 1]%Q [6] [0; 2]%nat), 2, [0%nat].
  split; [apply built_intro; vmr|]. split; [lia|]. split; [apply Permutation_refl|vmr].
Qed.
Print Assumptions C59_single_query_refuted.
(** An algorithm that returns one score for several rows goes unnoticed. *)
Theorem C59_single_answer_refuted : exists algo shuffled made scores, Permutation shuffled (seq 0 (n_queries xd)) /\
  kfold_scoring (N:=QN) true algo xd 2 shuffled [] = (made, Ok scores) /\ Forall (fun c => exists x, algo [] c = Ok [x] /\ (1 < length (c_test c))%nat) made.
Proof.
  exists (fun _ c => Ok [hd 0%Q (c_y c)]), [3; 0; 4; 1; 2]%nat. eexists. eexists. split; [|split; [vmr|]].
  - apply NoDup_Permutation; [repeat constructor; cbn; intuition discriminate|repeat constructor; cbn; intuition discriminate|]. intros x. cbn. intuition.
  - repeat constructor; eexists; (split; [reflexivity|cbn; lia]).
Qed.
Print Assumptions C59_single_answer_refuted.

(** C60 *)
Theorem C60_decomposition_is_exact : forall (sum : list R -> R), (forall l, sum l = Rtotal l) ->
  forall notebook shuffles (ds : list (dataset RE)) algos metrics L k made made' data,
  Forall (fun d => exists nf X y ids, built nf X y ids d) ds ->
  bias_variance (N:=RE) sum notebook shuffles ds algos metrics L k made = Ok (made', data) ->
  forall i d a algo m metric, nth_error ds i = Some d -> nth_error algos a = Some algo -> nth_error metrics m = Some metric ->
  exists cols values target,
    length cols = Z.to_nat L /\
    (forall l col, nth_error cols l = Some col -> length col = n_instances d /\ exists made0, snd (kfold_scoring notebook algo d k (shuffles i a m l) made0) = Ok col) /\
    (if fst metric then values = cols /\ target = ds_y d
     else target = repeat 1%R (n_queries d) /\ Forall2 (fun col v => exists w vs, snd metric d col = Ok (w, vs) /\ (length vs = n_queries d -> v = vs)) cols values) /\
    at3 data i m a = Some (error_of values target, (bias_of values target, variance_of values target)) /\
    (error_of values target = bias_of values target + variance_of values target)%R /\
    (0 <= error_of values target)%R /\ (0 <= bias_of values target)%R /\ (0 <= variance_of values target)%R.
Proof. exact C60_lemma. Qed.
Print Assumptions C60_decomposition_is_exact.
Definition value {A B} (r : res (A * B)) : option B := match r with Ok (_, b) => Some b | Err _ => None end.
(** A metric: the score of the first row of each query, divided by 500. *)
Definition xmetric : evaluator (N:=QN) := fun d s => Ok (0%Q, map (fun t => match nth_error s (fst (snd t)) with Some v => Qred (v / 500) | None => 0%Q end) (query_iterator d)).
Definition xshuffles (d a m l : nat) : list nat := if Nat.even l then [3; 0; 4; 1; 2]%nat else [1; 2; 0; 4; 3]%nat.
Example C60_example : value (bias_variance (N:=QN) nsum true xshuffles [xd] [xalgo] [(true, xmetric); (false, xmetric)] 2 2 [])
  = Some [[[(285333 # 2, (265333 # 2, 10000))]; [(166939 # 1250000, (116939 # 1250000, 1 # 25))]]]%Q.
Proof. vmr. Qed.

(** C72 *)
Theorem C72_table_of_p_values : forall (sum rowsum : list RE -> RE) digest, (forall l, rowsum l = Rtotal l) ->
  forall st sh ds, ready digest st sh ds -> forall choice a b metrics n_perm cache st' data,
  statistical_significance (N:=RE) sum digest rowsum choice st ds a b metrics n_perm cache = Ok (st', data) ->
  length data = length ds /\
  forall i o c f, nth_error ds i = Some o -> nth_error metrics c = Some f ->
    exists va vb p, evaluated st sh o a f va /\ evaluated st sh o b f vb /\
      randomization (N:=RE) sum (choice i c) (snd va) (snd vb) n_perm = Ok p /\ at2 data i c = Some p.
Proof. exact C72_lemma. Qed.
Print Assumptions C72_table_of_p_values.
Theorem C72_model_against_itself : forall (sum rowsum : list RE -> RE) digest, (forall l, rowsum l = Rtotal l) ->
  forall st sh ds, ready digest st sh ds -> forall choice a metrics n_perm cache st' data,
  statistical_significance (N:=RE) sum digest rowsum choice st ds a a metrics n_perm cache = Ok (st', data) -> 0 < n_perm ->
  forall i o c f, nth_error ds i = Some o -> nth_error metrics c = Some f ->
  (forall y w vs, f (snd o) y = Ok (w, vs) -> vs <> []) -> at2 data i c = Some (1, 1)%R.
Proof. exact C72_same_lemma. Qed.
Print Assumptions C72_model_against_itself.
Example C72_hypotheses : forall digest, ready digest P_Effectiveness.rst P_Effectiveness.rsh P_Effectiveness.rds.
Proof. exact P_Effectiveness.ready_example. Qed.
(** Two data sets, two metrics, four draws. *)
Example C72_example :
  value (statistical_significance (N:=QN) nsum P_Effectiveness.xdigest P_Effectiveness.qsum (fun _ _ => xchoice) P_Effectiveness.xst P_Effectiveness.xds 0 1 [P_Effectiveness.p1; P_Effectiveness.p2] 4 true)
  = Some [[(1 # 2, 1); (1, 1)]; [(1, 1); (1, 1)]]%Q.
Proof. vmr. Qed.
