(** The bias/variance decomposition and the table of p-values. *)
From Coq Require Import List ZArith Bool Reals Lia Lra Permutation.
From Verif Require Import Base Lists Num M_Dataset M_NDCG S_Dataset L_Dataset L_Dataset2 L_Dataset3 M_Ensemble S_Ensemble L_Ensemble3 M_Effectiveness S_Effectiveness L_Effectiveness L_Effectiveness2 M_Statistical S_Statistical L_Feature4 L_Feature5 L_Statistical L_Statistical2 L_Statistical3.
Import ListNotations.
Local Open Scope Z_scope.

(** ** Sums *)
Lemma total_squares c l : (Rtotal (squares c l) = Rtotal (map (fun x => x ^ 2) l) - 2 * c * Rtotal l + INR (length l) * c ^ 2)%R.
Proof.
  unfold squares. induction l as [|x l IH]; [cbn; lra|]. cbn [map length]. rewrite !Rtotal_cons, IH, S_INR. lra.
Qed.
Lemma INR_pos {A} (l : list A) : l <> [] -> (0 < INR (length l))%R.
Proof. intros H. apply lt_0_INR. destruct l; [contradiction|cbn; lia]. Qed.

Lemma mean_split t l : l <> [] -> (mean (squares t l) = (mean l - t) ^ 2 + mean (squares (mean l) l))%R.
Proof.
  intros H. pose proof (INR_pos l H) as P. unfold mean at 1 3. rewrite !total_squares. unfold squares. rewrite !map_length. unfold mean. field. lra.
Qed.
Lemma mean_nonneg l : (forall x, In x l -> 0 <= x)%R -> (0 <= mean l)%R.
Proof.
  intros H. unfold mean, Rdiv. destruct l as [|x l]; [cbn; lra|]. apply Rmult_le_pos; [apply Rtotal_nonneg, Forall_forall; exact H|].
  apply Rlt_le, Rinv_0_lt_compat, INR_pos. discriminate.
Qed.
Lemma squares_nonneg c l : (forall x, In x (squares c l) -> 0 <= x)%R.
Proof. intros x Hx. apply in_map_iff in Hx. destruct Hx as (y & <- & _). apply pow2_ge_0. Qed.
Lemma mean_plus {A} (f g : A -> R) l : (mean (map (fun i => f i + g i) l) = mean (map f l) + mean (map g l))%R.
Proof. unfold mean. rewrite Rtotal_map_add, !map_length. unfold Rdiv. lra. Qed.

Lemma error_splits cols target : cols <> [] -> (error_of cols target = bias_of cols target + variance_of cols target)%R.
Proof.
  intros H. unfold error_of, bias_of, variance_of, over_rows. rewrite <- mean_plus. f_equal. apply map_ext. intros i. apply mean_split. unfold row_of. destruct cols; [contradiction|discriminate].
Qed.
Lemma parts_nonneg cols target : (0 <= error_of cols target)%R /\ (0 <= bias_of cols target)%R /\ (0 <= variance_of cols target)%R.
Proof.
  repeat split; apply mean_nonneg; intros x Hx; apply in_map_iff in Hx; destruct Hx as (i & <- & _); try (apply mean_nonneg; apply squares_nonneg). apply pow2_ge_0.
Qed.

(** ** What the code computes *)
Section Exact.
Variable sum : list R -> R.
Hypothesis exact_sum : forall l, sum l = Rtotal l.

Lemma mean_of_real (l : list R) : mean_of (N:=RE) sum l = mean l.
Proof. unfold mean_of, mean, nofnat. cbn [ndiv nofZ RE RN]. change (car RE) with R. rewrite exact_sum, INR_IZR_INZ. reflexivity. Qed.

Lemma total_concat {A} (g : A -> list R) l : Rtotal (concat (map g l)) = Rtotal (map (fun i => Rtotal (g i)) l).
Proof. induction l as [|x l IH]; [reflexivity|]. cbn [map concat]. rewrite Rtotal_app, Rtotal_cons, IH. reflexivity. Qed.
Lemma length_concat {A} (g : A -> list R) L l : (forall i, In i l -> length (g i) = L) -> length (concat (map g l)) = (length l * L)%nat.
Proof. induction l as [|x l IH]; intros H; [reflexivity|]. cbn [map concat length]. rewrite app_length, IH, (H x) by (intros; try apply H; cbn; auto). lia. Qed.

Lemma mean_concat {A} (g : A -> list R) L l : (0 < L)%nat -> l <> [] -> (forall i, In i l -> length (g i) = L) -> mean (concat (map g l)) = mean (map (fun i => mean (g i)) l).
Proof.
  intros HL Hl H. unfold mean at 1 2. rewrite total_concat, (length_concat g L l H), map_length, mult_INR.
  assert (E : Rtotal (map (fun i => mean (g i)) l) = (Rtotal (map (fun i => Rtotal (g i)) l) / INR L)%R).
  { clear - H HL. induction l as [|x l IH]; [cbn; unfold Rdiv; lra|]. cbn [map]. rewrite !Rtotal_cons, IH by (intros; apply H; cbn; auto). unfold mean. rewrite (H x) by (cbn; auto). unfold Rdiv. lra. }
  rewrite E. pose proof (INR_pos l Hl). pose proof (lt_0_INR L HL). field. lra.
Qed.

Lemma map_combine_seq {A B} (h : R * A -> B) (f : nat -> A) (t : list R) n : length t = n -> map h (combine t (map f (seq 0 n))) = map (fun i => h (nth i t 0%R, f i)) (seq 0 n).
Proof.
  intros L. apply nth_error_ext'. intros i. rewrite !nth_error_map', nth_error_combine, !nth_error_map', nth_error_seq. destruct (Nat.ltb_spec i n) as [H|H]; cbn [option_map].
  - rewrite (nth_error_nth' t 0%R) by lia. reflexivity.
  - destruct (nth_error t i); reflexivity.
Qed.

Lemma decomposition_real (cols : list (list R)) (target : list R) : cols <> [] -> target <> [] ->
  decomposition (N:=RE) sum cols target = (error_of cols target, (bias_of cols target, variance_of cols target)).
Proof.
  intros Hc Ht. set (n := length target). set (rows := map (row_of cols) (seq 0 n)).
  set (mo := mean_of (N:=RE) sum : list R -> R). set (avg := map mo rows).
  set (around := fun centre : list R => mo (concat (map (fun p : R * list R => map (fun x : R => ((x - fst p) ^ 2)%R) (snd p)) (combine centre rows)))).
  transitivity (around target, (mo (map (fun p : R * R => ((fst p - snd p) ^ 2)%R) (combine avg target)), around avg)); [reflexivity|].
  assert (Hmo : forall l, mo l = mean l) by exact mean_of_real.
  assert (Hn : seq 0 n <> []) by (unfold n; destruct target; [contradiction|discriminate]).
  assert (Ec : (0 < length cols)%nat) by (destruct cols; [contradiction|cbn; lia]).
  assert (Ea : avg = map (fun i => mean (row_of cols i)) (seq 0 n)) by (unfold avg, rows; rewrite map_map; apply map_ext; intros; apply Hmo).
  assert (Ar : forall centre : list R, length centre = n -> around centre = mean (map (fun i => mean (squares (nth i centre 0%R) (row_of cols i))) (seq 0 n))).
  { intros centre L. unfold around. rewrite Hmo. unfold rows. rewrite (map_combine_seq _ _ _ _ L). cbn [fst snd].
    rewrite (mean_concat _ (length cols)); auto. intros i _. rewrite map_length. unfold row_of. apply map_length. }
  f_equal; [|f_equal].
  - exact (Ar target eq_refl).
  - rewrite Hmo, Ea. unfold bias_of, over_rows. fold n. f_equal.
    apply nth_error_ext'. intros i. rewrite !nth_error_map', nth_error_combine, nth_error_map', nth_error_seq. destruct (Nat.ltb_spec i n) as [H|H]; cbn [option_map]; [|reflexivity].
    rewrite (nth_error_nth' target 0%R) by exact H. reflexivity.
  - rewrite Ar by (rewrite Ea, map_length, seq_length; reflexivity). unfold variance_of, over_rows. fold n. f_equal. apply map_ext_in. intros i Hi. apply in_seq in Hi. rewrite Ea.
    rewrite (nth_indep _ 0%R (mean (row_of cols 0))) by (rewrite map_length, seq_length; lia). rewrite (map_nth (fun i => mean (row_of cols i))), seq_nth by lia. reflexivity.
Qed.
End Exact.

(** ** Loops with a state *)
Lemma mapST_nth {S A B} (f : S -> A -> res (S * B)) l : forall s s' bs i a, mapST f s l = Ok (s', bs) -> nth_error l i = Some a -> exists s1 s2 b, f s1 a = Ok (s2, b) /\ nth_error bs i = Some b.
Proof.
  induction l as [|x l IH]; intros s s' bs i a E H; [destruct i; discriminate|]. cbn [mapST] in E. apply bind_ok in E. destruct E as [[s1 b] [E1 E]]. apply bind_ok in E. destruct E as [[s2 bs'] [E2 E]]. cbn [fst snd] in *. inversion E; subst.
  destruct i as [|i]; cbn in H; [inversion H; subst; exists s, s1, b; auto|]. exact (IH _ _ _ _ _ E2 H).
Qed.
Lemma mapST_length {S A B} (f : S -> A -> res (S * B)) l : forall s s' bs, mapST f s l = Ok (s', bs) -> length bs = length l.
Proof.
  induction l as [|x l IH]; intros s s' bs E; [inversion E; reflexivity|]. cbn [mapST] in E. apply bind_ok in E. destruct E as [[s1 b] [E1 E]]. apply bind_ok in E. destruct E as [[s2 bs'] [E2 E]]. inversion E; subst. cbn. f_equal. exact (IH _ _ _ E2).
Qed.
Lemma nth_error_numbered {A} (l : list A) i a : nth_error l i = Some a -> nth_error (combine (seq 0 (length l)) l) i = Some (i, a).
Proof.
  intros H. rewrite nth_error_combine, nth_error_seq, H. assert (i < length l)%nat by (apply nth_error_Some; congruence). destruct (Nat.ltb_spec i (length l)); [reflexivity|lia].
Qed.

(** ** bias_variance *)
Section BV.
Context {N : Num.num}.
Lemma assign_mask_length {A} m (v t s : list A) : assign_mask m v t = Ok s -> length s = length t.
Proof.
  unfold assign_mask. destruct (_ =? _)%nat; [intros E; inversion E; apply put_length|]. destruct v as [|x [|]]; intros E; inversion E. apply put_length.
Qed.
Lemma loop_length (algo : algorithm N) d sh ch starts : forall made scores m s, kfold_loop algo d sh ch starts made scores = (m, Ok s) -> length s = length scores.
Proof.
  induction starts as [|p starts IH]; intros made scores m s; cbn [kfold_loop]; [intros E; inversion E; reflexivity|].
  destruct (fold_call _ _) as [[t c]|e]; [|discriminate]. destruct (algo made c) as [v|e]; [|discriminate]. destruct (assign_mask _ _ _) as [s1|e] eqn:E1; [|discriminate].
  intros E. rewrite (IH _ _ _ _ E). exact (assign_mask_length _ _ _ _ E1).
Qed.
Lemma kfold_length nb (algo : algorithm N) d k sh made s : k <> 0 -> snd (kfold_scoring nb algo d k sh made) = Ok s -> length s = n_instances d /\ (0 < n_queries d)%nat /\ nb = true.
Proof.
  intros Hk E. destruct (Nat.eq_dec (n_queries d) 0) as [E0|E0]; [rewrite C59_no_query_lemma in E by auto; discriminate|].
  unfold kfold_scoring in E. destruct (Z.eqb_spec k 0); [contradiction|]. destruct (py_range _ _ _) as [st|]; [|discriminate]. destruct (kfold_loop _ _ _ _ _ _ _) as [m r] eqn:El. cbn [snd] in E. destruct r as [s'|]; cbn [bind] in E; [|discriminate].
  destruct nb; [|discriminate]. inversion E; subst. apply loop_length in El. rewrite repeat_length in El. split; [exact El|]. split; [lia|reflexivity].
Qed.

(** What one cell is made of. *)
Lemma bv_cell (sum : list N -> N) nb shuffles ds algos metrics L k made made' data :
  bias_variance sum nb shuffles ds algos metrics L k made = Ok (made', data) ->
  2 <= k /\ 2 <= L /\ ds <> [] /\ metrics <> [] /\ length data = length ds /\
  forall i d a algo m metric, nth_error ds i = Some d -> nth_error algos a = Some algo -> nth_error metrics m = Some metric ->
    exists cols cell, at3 data i m a = Some cell /\ length cols = Z.to_nat L /\
      (forall l col, nth_error cols l = Some col -> exists made0, snd (kfold_scoring nb algo d k (shuffles i a m l) made0) = Ok col) /\
      bias_variance_cell sum d cols metric = Ok cell.
Proof.
  unfold bias_variance. intros E.
  destruct ((k <? 2) || (L <? 2) || (length ds =? 0)%nat || (length metrics =? 0)%nat) eqn:G; [discriminate|]. apply orb_false_elim in G. destruct G as [G G4]. apply orb_false_elim in G. destruct G as [G G3]. apply orb_false_elim in G. destruct G as [G1 G2].
  apply Z.ltb_ge in G1. apply Z.ltb_ge in G2. apply Nat.eqb_neq in G3. apply Nat.eqb_neq in G4.
  split; [lia|]. split; [lia|]. split; [destruct ds; [contradiction|discriminate]|]. split; [destruct metrics; [contradiction|discriminate]|].
  split; [rewrite (mapST_length _ _ _ _ _ E), combine_length, seq_length; lia|].
  intros i d a algo m metric Hd Ha Hm. destruct (mapST_nth _ _ _ _ _ _ _ E (nth_error_numbered _ _ _ Hd)) as (s1 & s2 & rows & E1 & Hrows). cbn [fst snd] in E1.
  apply bind_ok in E1. destruct E1 as [[s3 byalgo] [E2 E1]]. apply bind_ok in E1. destruct E1 as [rows' [E3 E1]]. inversion E1; subst rows'. cbn [fst snd] in *.
  destruct (mapST_nth _ _ _ _ _ _ _ E2 (nth_error_numbered _ _ _ Ha)) as (s4 & s5 & cells & E4 & Hcells). cbn [fst snd] in E4.
  destruct (mapST_nth _ _ _ _ _ _ _ E4 (nth_error_numbered _ _ _ Hm)) as (s6 & s7 & cell & E5 & Hcell). cbn [fst snd] in E5.
  apply bind_ok in E5. destruct E5 as [[s8 cols] [E6 E5]]. apply bind_ok in E5. destruct E5 as [cell' [E7 E5]]. inversion E5; subst cell'. cbn [fst snd] in *.
  exists cols, cell. assert (Hml : (m < length metrics)%nat) by (apply nth_error_Some; congruence). split; [|split; [|split]].
  - unfold by_metric in E3. destruct (mapM_nth _ _ _ m m E3) as [row [Hrow E8]]; [rewrite nth_error_seq; destruct (Nat.ltb_spec m (length metrics)); [reflexivity|lia]|].
    destruct (mapM_nth _ _ _ _ _ E8 Hcells) as [c [Hc E9]]. rewrite Hcell in E9. cbn in E9. inversion E9; subst c. exact (at3_ok _ _ _ _ _ _ _ Hrows Hrow Hc).
  - unfold multi_kfold_scoring in E6. rewrite (mapST_length _ _ _ _ _ E6), seq_length. reflexivity.
  - intros l col Hl. unfold multi_kfold_scoring in E6. assert (Ll : (l < Z.to_nat L)%nat) by (rewrite <- (seq_length (Z.to_nat L) 0), <- (mapST_length _ _ _ _ _ E6); apply nth_error_Some; congruence).
    destruct (mapST_nth _ _ _ _ _ l l E6) as (t1 & t2 & c & E8 & Hc); [rewrite nth_error_seq; destruct (Nat.ltb_spec l (Z.to_nat L)); [reflexivity|lia]|]. cbn zeta in E8.
    apply bind_ok in E8. destruct E8 as [c' [E9 E8]]. inversion E8; subst. rewrite Hl in Hc. inversion Hc; subst. exists t1. exact E9.
  - exact E7.
Qed.

Lemma C59_bias_outside_lemma (sum : list N -> N) shuffles ds algos metrics L k made : algos <> [] -> exists e, bias_variance sum false shuffles ds algos metrics L k made = Err e.
Proof.
  intros Ha. destruct (bias_variance sum false shuffles ds algos metrics L k made) as [[made' data]|e] eqn:E; [|exists e; reflexivity]. exfalso.
  destruct (bv_cell _ _ _ _ _ _ _ _ _ _ _ E) as (Hk & HL & Hds & Hms & _ & G). destruct ds as [|d ds]; [contradiction|]. destruct algos as [|algo algos]; [contradiction|]. destruct metrics as [|metric metrics]; [contradiction|].
  destruct (G 0%nat d 0%nat algo 0%nat metric eq_refl eq_refl eq_refl) as (cols & cell & _ & Lc & Hcols & _). destruct cols as [|col cols]; [cbn in Lc; lia|].
  destruct (Hcols 0%nat col eq_refl) as [made0 Hc]. destruct (C59_outside_lemma algo d k (shuffles 0%nat 0%nat 0%nat 0%nat) made0) as [e He]. rewrite Hc in He. discriminate.
Qed.
End BV.

Section BVReal.
Variable sum : list R -> R.
Hypothesis exact_sum : forall l, sum l = Rtotal l.
Lemma C60_lemma nb shuffles (ds : list (dataset RE)) algos metrics L k made made' data :
  Forall (fun d => exists nf X y ids, built nf X y ids d) ds ->
  bias_variance (N:=RE) sum nb shuffles ds algos metrics L k made = Ok (made', data) ->
  forall i d a algo m metric, nth_error ds i = Some d -> nth_error algos a = Some algo -> nth_error metrics m = Some metric ->
  exists cols values target,
    length cols = Z.to_nat L /\
    (forall l col, nth_error cols l = Some col -> length col = n_instances d /\ exists made0, snd (kfold_scoring nb algo d k (shuffles i a m l) made0) = Ok col) /\
    (if fst metric then values = cols /\ target = ds_y d
     else target = repeat 1%R (n_queries d) /\ Forall2 (fun col v => exists w vs, snd metric d col = Ok (w, vs) /\ (length vs = n_queries d -> v = vs)) cols values) /\
    at3 data i m a = Some (error_of values target, (bias_of values target, variance_of values target)) /\
    (error_of values target = bias_of values target + variance_of values target)%R /\
    (0 <= error_of values target)%R /\ (0 <= bias_of values target)%R /\ (0 <= variance_of values target)%R.
Proof.
  intros FB E i d a algo m metric Hd Ha Hm. destruct (bv_cell _ _ _ _ _ _ _ _ _ _ _ E) as (Hk & HL & _ & _ & _ & G).
  destruct (G i d a algo m metric Hd Ha Hm) as (cols & cell & Hcell & Lc & Hcols & EC).
  assert (Nc : cols <> []) by (intros ->; cbn in Lc; lia).
  assert (Hn : (0 < n_queries d)%nat /\ (0 < n_instances d)%nat).
  { destruct cols as [|col cols]; [contradiction|]. destruct (Hcols 0%nat col eq_refl) as [made0 Hc]. apply kfold_length in Hc; [|lia]. destruct Hc as (_ & Hq & _). split; [exact Hq|].
    rewrite Forall_forall in FB. destruct (FB d (nth_error_In _ _ Hd)) as (nf & X & y & ids & B). rewrite (n_instances_built _ _ _ _ _ B). destruct B as (_ & _ & _ & H).
    unfold n_queries in Hq. destruct (ds_qids d) as [|q l] eqn:Eq; [cbn in Hq; lia|]. assert (Hin : In q ids) by (apply (ds_qids_In _ _ _ _ _ _ H); rewrite Eq; cbn; auto). destruct ids; [contradiction|cbn; lia]. }
  assert (Cl : forall l col, nth_error cols l = Some col -> length col = n_instances d /\ exists made0, snd (kfold_scoring nb algo d k (shuffles i a m l) made0) = Ok col).
  { intros l col Hl. destruct (Hcols l col Hl) as [made0 Hc]. pose proof Hc as Hc'. apply kfold_length in Hc; [|lia]. split; [apply Hc|exists made0; exact Hc']. }
  assert (Fin : forall values target, values <> [] -> target <> [] -> decomposition (N:=RE) sum values target = cell ->
     at3 data i m a = Some (error_of values target, (bias_of values target, variance_of values target)) /\
    (error_of values target = bias_of values target + variance_of values target)%R /\
    (0 <= error_of values target)%R /\ (0 <= bias_of values target)%R /\ (0 <= variance_of values target)%R).
  { intros values target N1 N2 D. rewrite (decomposition_real sum exact_sum values target N1 N2) in D. split; [exact (eq_trans Hcell (f_equal Some (eq_sym D)))|]. split; [apply error_splits; exact N1|]. apply parts_nonneg. }
  unfold bias_variance_cell in EC. destruct (fst metric) eqn:Em.
  - cbn [bind] in EC. inversion EC as [EC']. exists cols, cols, (ds_y d). split; [exact Lc|]. split; [exact Cl|]. split; [auto|]. apply Fin; auto.
    unfold n_instances in Hn. destruct (ds_y d); [cbn in Hn; lia|discriminate].
  - apply bind_ok in EC. destruct EC as [r [ER EC]]. apply bind_ok in ER. destruct ER as [q [EQ ER]]. inversion ER; subst r. inversion EC as [EC'].
    exists cols, q, (repeat 1%R (n_queries d)). split; [exact Lc|]. split; [exact Cl|]. split; [split; [reflexivity|]|].
    + apply mapM_ok_iff in EQ. clear - EQ. induction EQ as [|c v cols q H _ IH]; constructor; auto. apply bind_ok in H. destruct H as [[w vs] [H1 H2]]. exists w, vs. split; [exact H1|]. intros Hl. unfold as_column in H2. cbn [snd] in H2.
      rewrite Hl, Nat.eqb_refl in H2. inversion H2. apply map_id.
    + apply Fin; auto.
      * intros ->. apply mapM_length in EQ. destruct cols; [contradiction|discriminate].
      * destruct (n_queries d); [lia|discriminate].
Qed.
End BVReal.

(** ** statistical_significance *)
Section Significance.
Variable (sum rowsum : list RE -> RE) (digest : list (list RE) -> list RE -> list Z -> Z).
Hypothesis rowsum_exact : forall l, rowsum l = Rtotal l.
Variable (st : list (model RE)) (sh : list shape) (ds : list (obj (N:=RE))).
Hypothesis Hr : ready digest st sh ds.

Definition row_of_p choice (ya yb : answer (N:=RE)) (metrics : list (evaluator (N:=RE))) n_perm (o : nat * obj (N:=RE)) : res (list (R * R)) :=
  do y1 <- y_pred ya; do y2 <- y_pred yb;
  mapM (fun f : nat * evaluator (N:=RE) =>
        do va <- snd f (snd (snd o)) y1;
        do vb <- snd f (snd (snd o)) y2;
        do p <- randomization (N:=RE) sum (choice (fst o) (fst f)) (snd va) (snd vb) n_perm;
        Ok (nf32 (n:=RE) (fst p), nf32 (n:=RE) (snd p))) (combine (seq 0 (length metrics)) metrics).

Lemma C72_lemma choice a b metrics n_perm cache st' data :
  statistical_significance (N:=RE) sum digest rowsum choice st ds a b metrics n_perm cache = Ok (st', data) ->
  length data = length ds /\
  forall i o c f, nth_error ds i = Some o -> nth_error metrics c = Some f ->
    exists va vb p, evaluated st sh o a f va /\ evaluated st sh o b f vb /\
      randomization (N:=RE) sum (choice i c) (snd va) (snd vb) n_perm = Ok p /\ at2 data i c = Some p.
Proof.
  intros E. set (g := fun o : nat * obj (N:=RE) => do ya <- alone (N:=RE) rowsum digest st a (snd o) false; do y1 <- y_pred ya; do yb <- alone (N:=RE) rowsum digest st b (snd o) false; row_of_p choice ya yb metrics n_perm o).
  destruct (transparent_cached rowsum digest rowsum_exact st sh ds cache Hr) as (T0 & T1 & _).
  assert (M := mapST_inv (after rowsum digest st ds) (fun st o =>
    do ra <- score_in (N:=RE) rowsum digest st a (snd o) false cache;
    do ya <- y_pred (snd ra);
    do rb <- score_in (N:=RE) rowsum digest (fst ra) b (snd o) false cache;
    do yb <- y_pred (snd rb);
    do row <- mapM (fun f : nat * evaluator (N:=RE) =>
        do va <- snd f (snd (snd o)) ya;
        do vb <- snd f (snd (snd o)) yb;
        do p <- randomization (N:=RE) sum (choice (fst o) (fst f)) (snd va) (snd vb) n_perm;
        Ok (nf32 (n:=RE) (fst p), nf32 (n:=RE) (snd p))) (combine (seq 0 (length metrics)) metrics);
    Ok (fst rb, row)) g (combine (seq 0 (length ds)) ds)).
  assert (Hstep : forall s o, after rowsum digest st ds s -> In o (combine (seq 0 (length ds)) ds) ->
     match g o with Ok bb => exists s', (do ra <- score_in (N:=RE) rowsum digest s a (snd o) false cache;
    do ya <- y_pred (snd ra);
    do rb <- score_in (N:=RE) rowsum digest (fst ra) b (snd o) false cache;
    do yb <- y_pred (snd rb);
    do row <- mapM (fun f : nat * evaluator (N:=RE) =>
        do va <- snd f (snd (snd o)) ya;
        do vb <- snd f (snd (snd o)) yb;
        do p <- randomization (N:=RE) sum (choice (fst o) (fst f)) (snd va) (snd vb) n_perm;
        Ok (nf32 (n:=RE) (fst p), nf32 (n:=RE) (snd p))) (combine (seq 0 (length metrics)) metrics);
    Ok (fst rb, row)) = Ok (s', bb) /\ after rowsum digest st ds s' | Err e => (do ra <- score_in (N:=RE) rowsum digest s a (snd o) false cache;
    do ya <- y_pred (snd ra);
    do rb <- score_in (N:=RE) rowsum digest (fst ra) b (snd o) false cache;
    do yb <- y_pred (snd rb);
    do row <- mapM (fun f : nat * evaluator (N:=RE) =>
        do va <- snd f (snd (snd o)) ya;
        do vb <- snd f (snd (snd o)) yb;
        do p <- randomization (N:=RE) sum (choice (fst o) (fst f)) (snd va) (snd vb) n_perm;
        Ok (nf32 (n:=RE) (fst p), nf32 (n:=RE) (snd p))) (combine (seq 0 (length metrics)) metrics);
    Ok (fst rb, row)) = Err e end).
  { intros s o Hs Ho. destruct o as [oi o]; apply in_combine_r in Ho. cbn [snd fst].
    unfold g, row_of_p. cbn [snd fst]. pose proof (T1 s a o false Hs Ho) as Qa. destruct (alone (N:=RE) rowsum digest st a o false) as [ya|e]; cbn [bind]; [|rewrite Qa; reflexivity].
    destruct Qa as (s1 & -> & Hs1). cbn [bind fst snd]. destruct (y_pred ya) as [y1|e] eqn:Ey1; cbn [bind]; [|reflexivity].
    pose proof (T1 s1 b o false Hs1 Ho) as Qb. destruct (alone (N:=RE) rowsum digest st b o false) as [yb|e]; cbn [bind]; [|rewrite Qb; reflexivity].
    destruct Qb as (s2 & -> & Hs2). cbn [bind fst snd]. destruct (y_pred yb) as [y2|e] eqn:Ey2; cbn [bind]; [|reflexivity].
    match goal with |- match ?x with _ => _ end => destruct x as [row|e] eqn:Er end; cbn [bind]; [exists s2; split; [reflexivity|exact Hs2]|reflexivity]. }
  specialize (M Hstep st T0). clear Hstep.
  match type of M with match ?x with _ => _ end => destruct x as [bs|e] eqn:Eb end; [|pose proof (eq_trans (eq_sym E) M); discriminate].
  destruct M as (s3 & M & _). pose proof (eq_trans (eq_sym E) M) as M2. injection M2 as <- <-. clear M.
  split; [rewrite (mapM_length _ _ Eb), combine_length, seq_length; lia|].
  intros i o c f Hi Hc. destruct (mapM_nth _ _ _ _ _ Eb (nth_error_numbered _ _ _ Hi)) as [row [Hrow Erow]]. unfold g in Erow. cbn [fst snd] in Erow.
  assert (Hin : In o ds) by (apply nth_error_In in Hi; exact Hi).
  assert (Q : forall j ans, alone (N:=RE) rowsum digest st j o false = Ok ans -> exists m s, nth_error st j = Some m /\ nth_error sh j = Some s /\ ans = Basic (N:=RE) (Some (scores_of m s (snd o)))).
  { intros j ans Ej. destruct (nth_error st j) as [m|] eqn:Hm; [|unfold alone in Ej; rewrite Hm in Ej; discriminate]. destruct Hr as [H1 _]. destruct (Forall2_nth _ _ _ _ _ H1 Hm) as [s [Hs _]].
    exists m, s. split; [reflexivity|]. split; [exact Hs|]. destruct (alone_real rowsum digest rowsum_exact st sh ds Hr j o m s Hin Hm Hs) as [[_ E1]|[_ [E1 _]]]; rewrite E1 in Ej; [discriminate|]. inversion Ej. reflexivity. }
  apply bind_ok in Erow. destruct Erow as [ya [Ea Erow]]. apply bind_ok in Erow. destruct Erow as [y1 [Ey1 Erow]]. apply bind_ok in Erow. destruct Erow as [yb [Eb' Erow]].
  destruct (Q a ya Ea) as (ma & sa & Hma & Hsa & ->). destruct (Q b yb Eb') as (mb & sb & Hmb & Hsb & ->).
  unfold row_of_p in Erow. cbn [y_pred bind fst snd] in Erow. destruct (mapM_nth _ _ _ _ _ Erow (nth_error_numbered _ _ _ Hc)) as [p [Hp Ep]]. cbn [fst snd] in Ep.
  apply bind_ok in Ep. destruct Ep as [va [Eva Ep]]. apply bind_ok in Ep. destruct Ep as [vb [Evb Ep]]. apply bind_ok in Ep. destruct Ep as [[p1 p2] [Epp Ep]].
  exists va, vb, (p1, p2). split; [exists ma, sa; auto|]. split; [exists mb, sb; auto|]. split; [exact Epp|]. injection Ep as <-. exact (at2_ok _ _ _ _ _ Hrow Hp).
Qed.

(** A model against itself. *)
Lemma C72_same_lemma choice a metrics n_perm cache st' data :
  statistical_significance (N:=RE) sum digest rowsum choice st ds a a metrics n_perm cache = Ok (st', data) -> 0 < n_perm ->
  forall i o c f, nth_error ds i = Some o -> nth_error metrics c = Some f -> (forall y w vs, f (snd o) y = Ok (w, vs) -> vs <> []) -> at2 data i c = Some (1, 1)%R.
Proof.
  intros E Hn i o c f Hi Hc Hf. destruct (C72_lemma choice a a metrics n_perm cache st' data E) as [_ G]. destruct (G i o c f Hi Hc) as (va & vb & p & (m & s & Hm & Hs & Ea) & (m' & s' & Hm' & Hs' & Eb) & Ep & Ed).
  rewrite Hm in Hm'. rewrite Hs in Hs'. inversion Hm'; inversion Hs'; subst m' s'. rewrite Ea in Eb. inversion Eb; subst vb. rewrite Ed. f_equal.
  destruct va as [w vs]. pose proof (C58_identical_lemma (fun x => x) sum (choice i c) vs n_perm (conj (fun x y H => H) (fun z _ => eq_refl)) Hn (Hf _ _ _ Ea)) as I.
  change (RF (fun x => x)) with RE in I. cbn [snd] in Ep. pose proof (eq_trans (eq_sym Ep) I) as J. inversion J. reflexivity.
Qed.
End Significance.
