(** Proofs: dump and load of float32 matrices (C14), XGBoost thresholds (C42). *)
From Coq Require Import Ascii String List ZArith Lia Bool.
From Verif Require Import Base Lists Num M_Text M_Dataset M_Svmlight S_Dataset S_Svmlight L_Text L_Svmlight2 M_Float L_Float
  M_Ensemble S_Ensemble L_Ensemble M_Loaders M_TextLoaders S_Loaders L_Loaders L_QuickRank L_Dump2.
Import ListNotations.
Local Open Scope Z_scope.

(** ** C14 *)
Definition f32_tok (v : f32) : numtok := match scan_double (show_f32 v) with Some t => t | None => NaN end.
Lemma f32_prints v : finite v -> cell_prints F32 f32_tok v /\ label_prints F32 f32_tok v.
Proof.
  intros H. destruct (print_and_read v H) as (m & e & NU & R1 & R2).
  assert (T : f32_tok v = Dec (match v with Fin neg _ => neg | _ => false end) m e).
  { unfold f32_tok. rewrite (scan_double_numeral _ _ NU). reflexivity. }
  unfold cell_prints, label_prints. rewrite T. cbn [show rd_value rd_label clamp F32]. rewrite R1, R2.
  split; [split; [exact NU|split; [reflexivity|]]|split; [exact NU|reflexivity]].
  destruct v; cbn [finite] in H; [reflexivity|tauto|tauto].
Qed.
Theorem C14_float32_lemma nf (X : list (list f32)) y ids d junk :
  built nf X y ids d -> (2 <= length X)%nat -> (0 < nf)%nat -> Forall (fun r => length r = nf) X ->
  length junk = length ids -> Forall finite y -> Forall (Forall finite) X ->
  Z.of_nat (length X * S nf) < 2 ^ 31 ->
  exists f, ds_dump F32 junk d = Ok f /\ ds_load F32 f = Ok d.
Proof.
  intros B L NF R J FY FX S. apply (C14_dataset_lemma F32 f32_tok nf X y ids d junk); auto.
  - eapply Forall_impl; [|exact FY]. intros v Hv. apply f32_prints; auto.
  - eapply Forall_impl; [|exact FX]. intros r Hr. eapply Forall_impl; [|exact Hr]. intros v Hv. apply f32_prints; auto.
Qed.
Theorem C14_float32_single_lemma nf (row : list f32) y q d junk :
  built nf [row] [y] [q] d -> (0 < nf)%nat -> length row = nf -> length junk = 1%nat ->
  finite y -> Forall finite row -> Z.of_nat (S nf) < 2 ^ 31 ->
  exists f, ds_dump F32 junk d = Ok f /\ load_svmlight_file F32 f = Ok (nf, [row], [y], []) /\
    ds_load F32 f = Err PlainException.
Proof.
  intros B NF R J FY FX S. apply (C14_single_lemma F32 f32_tok nf row y q d junk); auto.
  - apply f32_prints; auto.
  - eapply Forall_impl; [|exact FX]. intros v Hv. apply f32_prints; auto.
Qed.

(** ** C42 *)
Notation fv := (fval 23).
Lemma p23 : 0 <= 23. Proof. lia. Qed.
Lemma sval_lt j k : sval j < sval k <-> j < k.
Proof.
  assert (P : forall k, 0 < k -> 0 < fv k).
  { intros i Hi. pose proof (fval_lt 23 p23 0 i ltac:(lia) Hi). rewrite fval_0 in * by lia. lia. }
  assert (M : forall j k, j < k -> sval j < sval k).
  { clear j k. intros j k H. unfold sval. destruct (Z.ltb_spec j 0); destruct (Z.ltb_spec k 0); try lia.
    - pose proof (fval_lt 23 p23 (- k) (- j) ltac:(lia) ltac:(lia)). lia.
    - pose proof (P (- j) ltac:(lia)). pose proof (fval_nonneg 23 p23 k ltac:(lia)). lia.
    - apply fval_lt; lia. }
  split; auto. intros H. destruct (Z.lt_trichotomy j k) as [L|[L|L]]; auto; [subst; lia|]. apply M in L. lia.
Qed.
Lemma sval_le j k : sval j <= sval k <-> j <= k.
Proof. pose proof (sval_lt k j). lia. Qed.
Lemma sround_le n k : n <= sval k -> sround n <= k.
Proof.
  intros H. unfold sround. unfold sval in H. destruct (Z.ltb_spec n 0); destruct (Z.ltb_spec k 0).
  - pose proof (fround_ge 23 p23 (- n) 1 (- k) ltac:(lia) ltac:(lia) ltac:(lia) ltac:(lia)). lia.
  - pose proof (fround_ge 23 p23 (- n) 1 0 ltac:(lia) ltac:(lia) ltac:(lia)) as K. rewrite fval_0 in K by lia. lia.
  - pose proof (fval_lt 23 p23 0 (- k) ltac:(lia) ltac:(lia)). rewrite fval_0 in * by lia. lia.
  - apply fround_le; lia.
Qed.
Lemma sround_exact k : sround (sval k) = k.
Proof.
  unfold sround, sval. destruct (Z.ltb_spec k 0) as [L|L].
  - pose proof (fval_lt 23 p23 0 (- k) ltac:(lia) ltac:(lia)) as K. rewrite fval_0 in K by lia.
    destruct (Z.ltb_spec (- fv (- k)) 0); [|lia]. pose proof (fround_exact 23 p23 (- k) 1 ltac:(lia) ltac:(lia)) as E.
    rewrite Z.mul_1_r in E. rewrite Z.opp_involutive, E. lia.
  - pose proof (fval_nonneg 23 p23 k L). destruct (Z.ltb_spec (fv k) 0); [lia|].
    pose proof (fround_exact 23 p23 k 1 L ltac:(lia)) as E. rewrite Z.mul_1_r in E. exact E.
Qed.

Definition unit32 : Z := 2 ^ 149.
Lemma pow_big e m c : 0 <= e -> 2 ^ 23 <= m -> c < e -> 0 <= c -> 2 ^ (24 + c) <= m * 2 ^ e.
Proof.
  intros He Hm H Hc. replace (24 + c) with (23 + (c + 1)) by lia. rewrite Z.pow_add_r by lia.
  assert (2 ^ (c + 1) <= 2 ^ e) by (apply Z.pow_le_mono_r; lia). assert (0 < 2 ^ (c + 1)) by (apply Z.pow_pos_nonneg; lia).
  apply Z.mul_le_mono_nonneg; try lia; apply Z.pow_nonneg; lia.
Qed.
Lemma gap_below t : - 2 ^ 24 * unit32 < sval t <= 2 ^ 24 * unit32 -> sval t - unit32 <= sval (t - 1).
Proof.
  intros [H1 H2]. unfold unit32 in *.
  assert (T : 2 ^ 24 * 2 ^ 149 = 2 ^ (24 + 149)) by (rewrite <- Z.pow_add_r by lia; reflexivity).
  assert (T' : - 2 ^ 24 * 2 ^ 149 = - 2 ^ (24 + 149)) by (rewrite <- T; reflexivity).
  rewrite T in H2. rewrite T' in H1. clear T T'.
  assert (G : forall e, 0 <= e <= 149 -> 2 ^ e <= 2 ^ 149) by (intros; apply Z.pow_le_mono_r; lia).
  assert (PP : forall e, 0 <= e -> 0 < 2 ^ e) by (intros; apply Z.pow_pos_nonneg; lia).
  unfold sval in *. destruct (Z.le_gt_cases 1 t) as [L|L].
  - destruct (Z.ltb_spec t 0); [lia|]. destruct (Z.ltb_spec (t - 1) 0); [lia|].
    destruct (fval_step 23 p23 (t - 1) ltac:(lia)) as (e & m & _ & (He & Hm & D) & E1 & E2). replace (t - 1 + 1) with t in E2 by lia.
    rewrite E1, E2 in *. assert (e <= 149).
    { destruct (Z.le_gt_cases e 149); auto. destruct D as [->|D]; [lia|]. pose proof (pow_big e m 149 He D ltac:(lia) ltac:(lia)). pose proof (PP e He). lia. }
    specialize (G e ltac:(lia)). lia.
  - destruct (Z.ltb_spec (t - 1) 0); [|lia].
    destruct (fval_step 23 p23 (- t) ltac:(lia)) as (e & m & _ & (He & Hm & D) & E1 & E2). replace (- t + 1) with (- (t - 1)) in E2 by lia.
    rewrite E2. assert (ST : (if t <? 0 then - fv (- t) else fv t) = - (m * 2 ^ e)).
    { destruct (Z.ltb_spec t 0); [rewrite E1; reflexivity|]. assert (t = 0) by lia. subst t. rewrite <- E1. rewrite fval_0 by lia. reflexivity. }
    rewrite ST in *. assert (e <= 149).
    { destruct (Z.le_gt_cases e 149); auto. destruct D as [->|D]; [lia|]. pose proof (pow_big e m 149 He D ltac:(lia) ltac:(lia)). lia. }
    specialize (G e ltac:(lia)). lia.
Qed.
Lemma lower_pred t : - 2 ^ 24 * unit32 < sval t <= 2 ^ 24 * unit32 -> lower32 t = t - 1.
Proof.
  intros H. unfold lower32, next_after. fold unit32. pose proof (sround_le _ _ (gap_below t H)) as L.
  destruct (Z.ltb_spec (sround (sval t - unit32)) t); [reflexivity|lia].
Qed.
Theorem C42_lemma t x : - 2 ^ 24 * unit32 < sval t <= 2 ^ 24 * unit32 -> (sval x <= sval (lower32 t) <-> sval x < sval t).
Proof. intros H. rewrite (lower_pred t H), sval_le, sval_lt. lia. Qed.

(** Far from zero the difference is rounded away and nothing is lowered. *)
Theorem C42_beyond_lemma t : sval t <= - 2 ^ 25 * unit32 \/ 2 ^ 25 * unit32 < sval t -> lower32 t = t.
Proof.
  intros H. unfold lower32, next_after. fold unit32.
  assert (R : sround (sval t - unit32) = t); [|rewrite R; rewrite Z.ltb_irrefl; reflexivity].
  unfold unit32 in *.
  assert (T : 2 ^ 25 * 2 ^ 149 = 2 ^ (25 + 149)) by (rewrite <- Z.pow_add_r by lia; reflexivity).
  assert (T' : - 2 ^ 25 * 2 ^ 149 = - 2 ^ (25 + 149)) by (rewrite <- T; reflexivity).
  rewrite T, T' in H. clear T T'. change (25 + 149) with 174 in H.
  assert (U : 2 ^ 174 = 2 ^ 24 * 2 ^ 150) by (rewrite <- Z.pow_add_r by lia; reflexivity).
  assert (U2 : 2 ^ 151 = 4 * 2 ^ 149) by (change 4 with (2 ^ 2); rewrite <- Z.pow_add_r by lia; reflexivity).
  assert (U3 : 2 ^ 150 = 2 * 2 ^ 149) by (change 2 with (2 ^ 1) at 2; rewrite <- Z.pow_add_r by lia; reflexivity).
  assert (PP : forall e, 0 <= e -> 0 < 2 ^ e) by (intros; apply Z.pow_pos_nonneg; lia).
  pose proof (PP 149 ltac:(lia)) as P149.
  assert (G : forall e, 0 <= e -> 2 ^ 150 < 2 ^ e -> 2 ^ 151 <= 2 ^ e).
  { intros e He L. apply Z.pow_le_mono_r; [lia|]. apply Z.pow_lt_mono_r_iff in L; lia. }
  change (2 ^ 24) with 16777216 in U.
  destruct H as [H|H].
  - assert (L : t < 0). { destruct (Z.lt_ge_cases t 0); auto. unfold sval in H. destruct (Z.ltb_spec t 0); [lia|]. pose proof (fval_nonneg 23 p23 t ltac:(lia)). lia. }
    unfold sround, sval in *. destruct (Z.ltb_spec t 0); [|lia]. pose proof (fval_nonneg 23 p23 (- t) ltac:(lia)) as NN.
    destruct (Z.ltb_spec (- fv (- t) - 2 ^ 149) 0); [|lia].
    rewrite (fround_unique 23 p23 _ 1 (- t)); try lia.
    + destruct (fval_step 23 p23 (- t) ltac:(lia)) as (e & m & _ & (He & Hm & D) & E1 & E2). change (2 ^ (23 + 1)) with 16777216 in Hm. rewrite E2, E1 in *.
      pose proof (PP e He). specialize (G e He). assert (2 ^ 150 < 2 ^ e) by nia. lia.
    + right. pose proof (fval_lt 23 p23 (- t - 1) (- t) ltac:(lia) ltac:(lia)). lia.
  - assert (L : 0 < t). { destruct (Z.lt_ge_cases 0 t); auto. unfold sval in H. destruct (Z.ltb_spec t 0).
      - pose proof (fval_nonneg 23 p23 (- t) ltac:(lia)). lia. - assert (t = 0) by lia. subst. rewrite fval_0 in H by lia. lia. }
    unfold sround, sval in *. destruct (Z.ltb_spec t 0); [lia|]. destruct (Z.ltb_spec (fv t - 2 ^ 149) 0); [lia|].
    apply fround_unique; try lia.
    + pose proof (fval_lt1 23 p23 t ltac:(lia)). lia.
    + right. destruct (fval_step 23 p23 (t - 1) ltac:(lia)) as (e & m & _ & (He & Hm & D) & E1 & E2). replace (t - 1 + 1) with t in E2 by lia.
      change (2 ^ (23 + 1)) with 16777216 in Hm. rewrite E1, E2 in *. pose proof (PP e He). specialize (G e He). assert (2 ^ 150 < 2 ^ e) by nia. lia.
Qed.

(** Whole trees. *)
Lemma strict_exit {N : num} (lower : N -> N) {A} (row : list N) (t : tree A N) :
  Forall (fun thr => forall f, nleb (nth f row nzero) (lower thr) = nltb (nth f row nzero) thr) (thresholds t) ->
  exit_leaf row (convert lower (fun v => v) t) = exit_strict row t.
Proof.
  induction t as [a v|a f x l IHl r IHr]; cbn [thresholds convert exit_leaf exit_strict]; intros H; auto.
  inversion H as [|? ? H1 H2]; subst. apply Forall_app in H2 as [H2 H3]. rewrite H1, IHl, IHr by assumption. reflexivity.
Qed.
Theorem C42_tree_lemma {A} (row : list Z) (t : tree A F32N) :
  Forall (fun thr => - 2 ^ 24 * unit32 < sval thr <= 2 ^ 24 * unit32) (thresholds t) ->
  exit_leaf (N:=F32N) row (convert lower32 (fun v => v) t) = exit_strict (N:=F32N) row t.
Proof.
  intros H. apply (@strict_exit F32N lower32 A row t). eapply Forall_impl; [|exact H]. intros thr Ht f.
  pose proof (C42_lemma thr (nth f row 0) Ht) as K. change ((sval (nth f row 0) <=? sval (lower32 thr)) = (sval (nth f row 0) <? sval thr)).
  generalize dependent (sval (nth f row 0)). generalize (sval (lower32 thr)). generalize (sval thr). intros a b c K. clear - K.
  destruct (Z.leb_spec c b); destruct (Z.ltb_spec c a); lia.
Qed.

Lemma splits_convert {A U W} (h k : U -> W) (t : tree A U) : splits (convert h k t) = splits t.
Proof. induction t; cbn [splits convert]; congruence. Qed.
Lemma erase_convert {A U W} (h k : U -> W) (t : tree A U) : erase (convert h k t) = convert h k (erase t).
Proof. induction t; cbn [erase convert]; congruence. Qed.
Lemma strict_erase {N : num} {A} row (t : tree A N) : snd (exit_strict row t) = snd (exit_strict row (erase t)).
Proof. induction t as [a v|a f x l IHl r IHr]; cbn [exit_strict erase]; auto. destruct (nltb _ _); auto. Qed.

Section Scores.
Variable rd : text -> option F32N.
Notation cell := (cell_of rd).
Theorem C42_scores_lemma (ts : list (tree Z text)) ls f (X : list (list F32N)) :
  xgb_lines 0 ts ls -> file_text f ls -> Forall (xgb_ok rd) ts ->
  Forall (fun t => Forall (fun x => - 2 ^ 24 * unit32 < sval (cell x) <= 2 ^ 24 * unit32) (thresholds t)) ts ->
  (forall row, In row X -> Forall (fun t => Forall (fun i => 0 <= i < Z.of_nat (length row)) (splits t)) ts) ->
  exists e, xgb_load rd lower32 f = Ok e /\
    basic_scoring e X = Ok (map (fun row => fold_left (fun y t => nadd (n:=F32N) y (nmul (snd (exit_strict row (convert cell cell t))) none)) ts nzero) X).
Proof.
  intros L F G R C. destruct (@C41_lemma F32N rd lower32 ts ls f L F G) as (e & E1 & E2). exists e. split; [exact E1|].
  destruct E2 as (EN & _).
  set (ts2 := preorder_all 0 (map (convert (fun x => lower32 (cell x)) cell) ts) : list (tree Z F32N)) in *.
  assert (ER : map erase ts2 = map erase (map (convert (fun x => lower32 (cell x)) cell) ts)) by apply erase_all.
  rewrite (L_Ensemble.C31_lemma (N:=F32N) e ts2 _ X EN).
  - f_equal. apply map_ext. intros row. rewrite (score_erase (N:=F32N) _ ts2 _ row ER). unfold ensemble_score, tree_scores.
    clear - R. generalize (nzero (n:=F32N)). induction ts as [|t ts IH]; intros y; [reflexivity|].
    inversion R as [|? ? R1 R2]; subst. cbn [map combine fold_left fst snd].
    replace (snd (exit_leaf (N:=F32N) row (convert (fun x => lower32 (cell x)) cell t))) with (snd (exit_strict (N:=F32N) row (convert cell cell t))); [apply IH; exact R2|].
    f_equal. rewrite <- (C42_tree_lemma row (convert cell cell t)).
    + f_equal. clear. induction t; cbn [convert]; congruence.
    + clear - R1. induction t as [a v|a i x l IHl r IHr]; cbn [thresholds convert] in *; [constructor|]. inversion R1 as [|? ? Q1 Q2]; subst.
      apply Forall_app in Q2 as [Q2 Q3]. constructor; [exact Q1|]. apply Forall_app; auto.
  - intros row Hr. specialize (C row Hr). apply (covers_erase (N:=F32N) row (map (convert (fun x => lower32 (cell x)) cell) ts)); [symmetry; exact ER|].
    unfold covers. apply Forall_forall. intros t Ht. apply in_map_iff in Ht as (t0 & <- & H0). rewrite splits_convert. rewrite Forall_forall in C. apply C; exact H0.
Qed.
End Scores.
