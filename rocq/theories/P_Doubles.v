(** Property C94 (models of programs that work with doubles). *)
From Coq Require Import Ascii String List ZArith QArith Lia Bool Reals SpecFloat.
From Verif Require Import Base Lists Num M_Text M_Ensemble S_Svmlight S_Ensemble M_Loaders M_TextLoaders S_Loaders S_Twins.
From Verif Require Import M_IEEE S_IEEE S_Rounding S_IEEE2 S_Doubles S_Doubles2 T_Loaders L_Doubles L_Doubles2.
Import ListNotations.
Local Open Scope Z_scope.

(** ** One comparison *)
Theorem C94_comparison : forall x t, valid_binary 53 1024 x = true -> valid_binary 53 1024 t = true ->
  SFleb (to_float32 x) (to_float32 t) = SFleb x t || SFeqb (to_float32 x) (to_float32 t).
Proof. exact rounded_comparison. Qed.
Print Assumptions C94_comparison.
Theorem C94_float32_values : forall y, valid_binary 24 128 y = true ->
  valid_binary 53 1024 (widen y) = true /\ to_float32 (widen y) = y.
Proof. exact widen_exact. Qed.
Print Assumptions C94_float32_values.
Theorem C94_error : forall d, finite_value 53 1024 d -> finite_value 24 128 (to_float32 d) ->
  (Rabs (real_of (to_float32 d) - real_of d) <= roundoff * Rabs (real_of d) + tiny)%R.
Proof. exact to_float32_error. Qed.
Print Assumptions C94_error.

(** ** Trees *)
Theorem C94_leaf_reached : forall (A : Type) (row : list IEEE64) (t : tree A IEEE64),
  Forall (fun x => valid_binary 53 1024 x = true) row -> Forall (fun x => valid_binary 53 1024 x = true) (thresholds t) ->
  undisturbed_path row t ->
  exit_leaf (N:=IEEE32) (map to_float32 row) (convert to_float32 to_float32 t) =
  (fst (exit_leaf (N:=IEEE64) row t), to_float32 (snd (exit_leaf (N:=IEEE64) row t))).
Proof. exact (@rounded_exit). Qed.
Print Assumptions C94_leaf_reached.
Theorem C94_float32_thresholds : forall (A : Type) (row : list IEEE64) (t : tree A IEEE64),
  Forall short row -> Forall short (thresholds t) -> undisturbed_path row t.
Proof. intros A row t R T. exact (disturbed_only row t (short_undisturbed row t R T)). Qed.
Print Assumptions C94_float32_thresholds.

(** ** Models *)
Theorem C94_model : forall (e : ensemble IEEE32) (ts : list (tree unit IEEE64)) (ws : list IEEE32) (X : list (list IEEE64)),
  holds (N:=IEEE32) e (map (convert to_float32 to_float32) ts) ws ->
  Forall (fun t => Forall (fun x => valid_binary 53 1024 x = true) (thresholds t)) ts -> fit_rows ts X ->
  basic_scoring e (map (map to_float32) X) = Ok (map (rounded_score ws ts) X).
Proof. exact rounded_model. Qed.
Print Assumptions C94_model.
(** The score and the exact value of the weighted sum of the double leaves. *)
Theorem C94_score_error : forall (ts : list (tree unit IEEE64)) (ws : list IEEE32) (row : list IEEE64),
  length ws = length ts -> Forall (finite_value 24 128) ws ->
  Forall (fun t => Forall both_finite (values t) /\ undisturbed_path row t) ts -> Forall both_finite row ->
  (let n := length ts in
   ((1 + roundoff) ^ (n + 1) * double_mass ws ts row + (1 + roundoff) ^ n * (total_weight ws + INR n) * tiny < 2 ^ 128)%R) ->
  finite_value 24 128 (rounded_score ws ts row) /\
  (Rabs (real_of (rounded_score ws ts row) - double_exact ws ts row) <= double_error ws ts row)%R.
Proof. exact rounded_score_error. Qed.
Print Assumptions C94_score_error.

(** ** Files *)
Theorem C94_lightgbm : forall (rd : text -> option IEEE64), reads_doubles rd -> forall ps ls f X,
  lgbm_file (N:=IEEE32) (to_single rd) (map fst ps) ls -> file_text f ls ->
  Forall (fun p => arr_tree (fst p) (snd p) /\ fits16 (snd p) /\ Forall (readable rd) (a_threshold (fst p)) /\ Forall (readable rd) (a_leaf (fst p))) ps ->
  fit_rows (doubles rd (map snd ps)) X ->
  exists e, lgbm_load (N:=IEEE32) (to_single rd) f = Ok e /\
    basic_scoring e (map (map to_float32) X) = Ok (map (rounded_score (map (fun _ => none) ps) (doubles rd (map snd ps))) X).
Proof. exact lightgbm_doubles. Qed.
Print Assumptions C94_lightgbm.
Theorem C94_scikit : forall (rd : text -> option IEEE64), reads_doubles rd -> forall ts base lr ls f b l X,
  sk_lines ts base lr ls -> file_text f ls ->
  Forall (fun t => fits16 t /\ Forall (readable rd) (values t) /\ own_numbers t) ts -> rd base = Some b -> rd lr = Some l ->
  fit_rows (doubles rd ts) X ->
  exists e, sk_load (N:=IEEE32) (to_single rd) f = Ok (e, Some (to_float32 b), Some (to_float32 l)) /\
    basic_scoring e (map (map to_float32) X) = Ok (map (rounded_score (map (fun _ => none) ts) (doubles rd ts)) X).
Proof. exact scikit_doubles. Qed.
Print Assumptions C94_scikit.
Theorem C94_jforests : forall (rd : text -> option IEEE64), reads_doubles rd -> forall (ps : list (text * arrays * tree Z text)) x X,
  jf_doc (map fst ps) x ->
  Forall (fun p => readable rd (fst (fst p)) /\ arr_tree (snd (fst p)) (snd p) /\ fits16 (snd p) /\
            Forall (readable rd) (a_threshold (snd (fst p))) /\ Forall (readable rd) (a_leaf (snd (fst p)))) ps ->
  fit_rows (doubles rd (map snd ps)) X ->
  exists e, jf_load (N:=IEEE32) (to_single rd) x = Ok e /\
    basic_scoring e (map (map to_float32) X) = Ok (map (rounded_score (map (fun p => to_float32 (to_double rd (fst (fst p)))) ps) (doubles rd (map snd ps))) X).
Proof. exact jforests_doubles. Qed.
Print Assumptions C94_jforests.
Theorem C94_quickrank : forall (rd : text -> option IEEE64), reads_doubles rd -> forall (wts : list (text * tree unit text)) x X,
  quick_doc wts x ->
  Forall (fun p => readable rd (fst p) /\ Forall (readable rd) (values (snd p)) /\ fits16 (snd p)) wts ->
  fit_rows (doubles rd (map snd wts)) X ->
  exists e, quick_load (N:=IEEE32) (to_single rd) x = Ok e /\
    basic_scoring e (map (map to_float32) X) = Ok (map (rounded_score (map (fun p => to_float32 (to_double rd (fst p))) wts) (doubles rd (map snd wts))) X).
Proof. exact quickrank_doubles. Qed.
Print Assumptions C94_quickrank.
Theorem C94_catboost : forall n (ts : list (tree Z IEEE64)) nodes junk X,
  cat_file (N:=IEEE32) ts nodes -> ts <> [] -> Forall cat_tree ts -> Forall fits16 ts ->
  Forall (fun t => size t = n) ts -> Z.of_nat n <= 65535 -> (length ts <= length junk)%nat ->
  Forall (fun t => Forall (fun x => valid_binary 53 1024 x = true) (thresholds t)) ts -> fit_rows (map erase ts) X ->
  exists e, cat_load (N:=IEEE32) junk nodes = Ok e /\
    basic_scoring e (map (map to_float32) X) = Ok (map (rounded_score (map (fun _ => none) ts) (map erase ts)) X).
Proof. exact catboost_doubles. Qed.
Print Assumptions C94_catboost.

(** ** Examples *)
(** float(): the quotient of the decimal digits, in double precision. *)
Definition rdD (t : text) : option IEEE64 :=
  match rdQ t with Some q => Some (ndiv (n:=IEEE64) (nofZ (Qnum q)) (nofZ (Zpos (Qden q)))) | None => None end.
Definition dec (a b : Z) : IEEE64 := ndiv (n:=IEEE64) (nofZ a) (nofZ b).
Definition txt (l : list string) : text := concat (map (fun s => lit s ++ [newline])%list l).
Definition lgbm01 := txt ["Tree=0"; "num_leaves=2"; "split_feature=0"; "threshold=0.1"; "decision_type=2"; "left_child=-1"; "right_child=-2"; "leaf_value=0.3 0.7"; "shrinkage=1"]%string.
Definition tree01 : tree unit IEEE64 := Node tt 0 (dec 1 10) (Leaf tt (dec 3 10)) (Leaf tt (dec 7 10)).
Definition loaded (X : list (list IEEE64)) : res (list IEEE32) :=
  do e <- lgbm_load (N:=IEEE32) (to_single rdD) lgbm01; basic_scoring e (map (map to_float32) X).
(** The float32 next to 0.1. *)
Definition tenth32 : IEEE64 := widen (ieee 1036831949).
(** The first row is not above the threshold, the others are away from it after the rounding. *)
Example C94_example :
  bits_of (to_float32 (dec 1 10)) = 1036831949 /\
  loaded [[dec 1 10]; [dec 1 4]; [dec 1 20]; [dec (-1) 10]] =
    Ok (map (rounded_score [none] [tree01]) [[dec 1 10]; [dec 1 4]; [dec 1 20]; [dec (-1) 10]]) /\
  map bits_of (map (rounded_score [none] [tree01]) [[dec 1 10]; [dec 1 4]; [dec 1 20]; [dec (-1) 10]]) =
    [1050253722; 1060320051; 1050253722; 1050253722].
Proof. split; [vm_compute; reflexivity|]. split; vm_compute; reflexivity. Qed.
Print Assumptions C94_example.
Example C94_fit_example : fit_rows [tree01] [[dec 1 10]; [dec 1 4]; [dec 1 20]; [dec (-1) 10]].
Proof.
  intros row Hr. cbn [In] in Hr. destruct Hr as [<- | [<- | [<- | [<- | []]]]];
    (split; [constructor; [vm_compute; reflexivity|constructor]|constructor; [split|constructor]];
      [constructor; [cbn [length]; lia|constructor]|]; unfold tree01; cbn [undisturbed_path]; split; [intros H|destruct (nleb _ _); exact I];
      first [vm_compute; reflexivity|vm_compute in H; discriminate H]).
Qed.
Print Assumptions C94_fit_example.

(** The float32 next to 0.1 lies above the double 0.1: LightGBM sends it right, the loaded model left. *)
Theorem C94_threshold_refuted :
  short tenth32 /\ snd (exit_leaf [tenth32] tree01) = dec 7 10 /\
  map bits_of [to_float32 (dec 7 10); to_float32 (dec 3 10)] = [1060320051; 1050253722] /\
  loaded [[tenth32]] = Ok [to_float32 (dec 3 10)].
Proof. split; [exists (ieee 1036831949); vm_compute; auto|]. vm_compute. repeat split. Qed.
Print Assumptions C94_threshold_refuted.
(** LightGBM takes a missing value for 0 where the decision type is 2; the loaded model sends it right. *)
Theorem C94_missing_value_refuted :
  snd (exit_leaf (map nan_to_zero [S754_nan]) tree01) = dec 3 10 /\ loaded [[S754_nan : IEEE64]] = Ok [to_float32 (dec 7 10)].
Proof. vm_compute. repeat split. Qed.
Print Assumptions C94_missing_value_refuted.
