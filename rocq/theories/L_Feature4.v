(** Proofs about feature importance in real arithmetic. *)
From Coq Require Import List ZArith Bool Lia Lra Reals Permutation Arith.
From Verif Require Import Base Num Lists M_Dataset M_Ensemble S_Ensemble L_Ensemble L_Ensemble3 L_Loaders M_Topology L_Topology M_Feature S_Feature L_Feature L_Feature2 L_Feature3.
Import ListNotations.
Local Open Scope R_scope.

(** ** Sums *)
Lemma Rtotal_cons x l : Rtotal (x :: l) = x + Rtotal l.
Proof. reflexivity. Qed.
Lemma Rtotal_app a b : Rtotal (a ++ b) = Rtotal a + Rtotal b.
Proof. induction a as [|x a IH]; [change (Rtotal []) with 0; cbn [app]; lra|]. cbn [app]. rewrite !Rtotal_cons, IH. lra. Qed.
Lemma Rtotal_perm a b : Permutation a b -> Rtotal a = Rtotal b.
Proof. induction 1; rewrite ?Rtotal_cons in *; lra. Qed.
Lemma Rtotal_nonneg l : Forall (fun x => 0 <= x) l -> 0 <= Rtotal l.
Proof. induction 1; [apply Rle_refl|]. rewrite Rtotal_cons. lra. Qed.
Lemma Rtotal_rev l : Rtotal (rev l) = Rtotal l.
Proof. apply Rtotal_perm, Permutation_sym, Permutation_rev. Qed.
Lemma Rtotal_minus {A} (f g : A -> R) l : Rtotal (map (fun i => f i - g i) l) = Rtotal (map f l) - Rtotal (map g l).
Proof. induction l as [|x l IH]; cbn [map]; [change (Rtotal []) with 0; lra|]. rewrite !Rtotal_cons, IH. lra. Qed.
Lemma Rtotal_ext {A} (f g : A -> R) l : (forall i, In i l -> f i = g i) -> Rtotal (map f l) = Rtotal (map g l).
Proof. intros H. f_equal. apply map_ext_in. exact H. Qed.

Lemma filter_none {A} (l : list A) : filter (fun _ => false) l = [].
Proof. induction l; auto. Qed.

Section Sums.
Variable y : Z -> R.
Lemma mean_perm M M' : Permutation M M' -> mean y M = mean y M'.
Proof. intros P. unfold mean. rewrite (Rtotal_perm _ _ (Permutation_map y P)), (Permutation_length P). reflexivity. Qed.
Lemma sse_perm p M M' : Permutation M M' -> sse y p M = sse y p M'.
Proof. intros P. unfold sse. apply Rtotal_perm, Permutation_map, P. Qed.
Lemma sse_mean_perm M M' : Permutation M M' -> sse_mean y M = sse_mean y M'.
Proof. intros P. unfold sse_mean. rewrite (mean_perm _ _ P). apply sse_perm, P. Qed.
Lemma sse_app p L R : sse y p (L ++ R) = sse y p L + sse y p R.
Proof. unfold sse. rewrite map_app. apply Rtotal_app. Qed.
Lemma sse_ext p q M : (forall i, In i M -> p i = q i) -> sse y p M = sse y q M.
Proof. intros H. unfold sse. apply Rtotal_ext. intros i Hi. rewrite (H i Hi). reflexivity. Qed.

Lemma sse_const c M : sse y (fun _ => c) M = Rtotal (map (fun i => y i ^ 2) M) - 2 * c * Rtotal (map y M) + INR (length M) * c ^ 2.
Proof.
  unfold sse. induction M as [|i M IH]; [cbn [map length INR]; change (Rtotal []) with 0; lra|].
  cbn [map]. rewrite !Rtotal_cons, IH. change (length (i :: M)) with (S (length M)). rewrite S_INR. lra.
Qed.
Lemma mean_total M : mean y M * INR (length M) = Rtotal (map y M).
Proof.
  unfold mean. destruct M as [|i M]; [cbn [map length INR]; change (Rtotal []) with 0; lra|].
  field. change (length (i :: M)) with (S (length M)). rewrite S_INR. pose proof (pos_INR (length M)). lra.
Qed.
Lemma sse_mean_eq M : sse_mean y M = Rtotal (map (fun i => y i ^ 2) M) - INR (length M) * mean y M ^ 2.
Proof. unfold sse_mean. rewrite sse_const, <- mean_total. ring. Qed.

Lemma gain_eq f L R : gain y (f, L, R) = INR (length L) * mean y L ^ 2 + INR (length R) * mean y R ^ 2 - INR (length (L ++ R)) * mean y (L ++ R) ^ 2.
Proof. unfold gain. cbn [fst snd]. rewrite !sse_mean_eq, map_app, Rtotal_app. lra. Qed.
Lemma gain_nonneg p : 0 <= gain y p.
Proof.
  destruct p as [[f L] R]. rewrite gain_eq.
  pose proof (mean_total L) as EL. pose proof (mean_total R) as ER. pose proof (mean_total (L ++ R)) as E.
  rewrite map_app, Rtotal_app, <- EL, <- ER in E. rewrite app_length, plus_INR in *.
  pose proof (pos_INR (length L)) as A. pose proof (pos_INR (length R)) as B.
  set (a := INR (length L)) in *. set (b := INR (length R)) in *. set (u := mean y L) in *. set (v := mean y R) in *. set (m := mean y (L ++ R)) in *.
  destruct (Req_dec (a + b) 0) as [Z|Z].
  - assert (a = 0) by lra. assert (b = 0) by lra. replace (a * u ^ 2 + b * v ^ 2 - (a + b) * m ^ 2) with 0; [lra|]. rewrite H, H0. ring.
  - assert (Em : m = (u * a + v * b) / (a + b)) by (field_simplify_eq; [lra|exact Z]).
    replace (a * u ^ 2 + b * v ^ 2 - (a + b) * m ^ 2) with (a * b * (u - v) ^ 2 / (a + b)) by (rewrite Em; field; exact Z).
    apply Rmult_le_pos; [apply Rmult_le_pos; [apply Rmult_le_pos; lra|apply pow2_ge_0]|]. apply Rlt_le, Rinv_0_lt_compat. lra.
Qed.
Lemma gain_alike p q : alike p q -> gain y p = gain y q.
Proof.
  destruct p as [[f L] R], q as [[g L'] R']. intros [_ [PL PR]]. cbn [fst snd] in *. unfold gain. cbn [fst snd].
  rewrite (sse_mean_perm _ _ PL), (sse_mean_perm _ _ PR), (sse_mean_perm (L ++ R) (L' ++ R')) by (apply Permutation_app; assumption). reflexivity.
Qed.
Lemma gains_alike f v v' : Forall2 alike v v' -> gains_of y f v = gains_of y f v'.
Proof.
  intros H. unfold gains_of. induction H as [|p q v v' A _ IH]; [reflexivity|]. cbn [filter]. pose proof A as [E _]. rewrite E.
  destruct (Z.eqb (fst (fst q)) f); [|exact IH]. cbn [map]. rewrite !Rtotal_cons, IH, (gain_alike _ _ A). reflexivity.
Qed.
Lemma gains_cons f p v : gains_of y f (p :: v) = (if Z.eqb (fst (fst p)) f then gain y p else 0) + gains_of y f v.
Proof. unfold gains_of. cbn [filter]. destruct (Z.eqb (fst (fst p)) f); cbn [map]; rewrite ?Rtotal_cons; lra. Qed.
Lemma gains_app f v w : gains_of y f (v ++ w) = gains_of y f v + gains_of y f w.
Proof. unfold gains_of. rewrite filter_app, map_app. apply Rtotal_app. Qed.
Lemma gains_nonneg f v : 0 <= gains_of y f v.
Proof. apply Rtotal_nonneg. apply Forall_map, Forall_forall. intros p _. apply gain_nonneg. Qed.
End Sums.

(** ** Leaf mates *)
Section Mates.
Variable rows : list (list RE).
Implicit Type t : tree Z RE.
Lemma exit_in (row : list RE) t : In (fst (exit_leaf row t)) (marks t).
Proof.
  induction t as [i v|i f thr l IHl r IHr]; cbn [exit_leaf marks]; [left; reflexivity|]. right. apply in_or_app.
  destruct (nleb _ _); auto.
Qed.
Lemma mates_perm t j M M' : Permutation M M' -> Permutation (leaf_mates rows t j M) (leaf_mates rows t j M').
Proof. intros P. apply Permutation_filter. exact P. Qed.
Lemma mates_node i f thr l r j L R : NoDup (marks (Node i f thr l r)) ->
  (forall k, In k L -> goes_left rows f thr k = true) -> (forall k, In k R -> goes_left rows f thr k = false) ->
  (goes_left rows f thr j = true -> leaf_mates rows (Node i f thr l r) j (L ++ R) = leaf_mates rows l j L) /\
  (goes_left rows f thr j = false -> leaf_mates rows (Node i f thr l r) j (L ++ R) = leaf_mates rows r j R).
Proof.
  intros ND HL HR. cbn [marks] in ND. inversion ND as [|? ? _ ND']; subst. apply NoDup_app_inv in ND'. destruct ND' as [_ [_ D]].
  assert (G : forall k, exit_leaf (nth (Z.to_nat k) rows []) (Node i f thr l r) =
      if goes_left rows f thr k then exit_leaf (nth (Z.to_nat k) rows []) l else exit_leaf (nth (Z.to_nat k) rows []) r) by reflexivity.
  unfold leaf_mates. split; intros Hj; rewrite filter_app.
  - rewrite (filter_ext_in _ (fun k => Z.eqb (fst (exit_leaf (nth (Z.to_nat k) rows []) l)) (fst (exit_leaf (nth (Z.to_nat j) rows []) l))) L).
    2:{ intros k Hk. rewrite !G, Hj, (HL k Hk). reflexivity. }
    rewrite (filter_ext_in _ (fun _ => false) R).
    2:{ intros k Hk. rewrite !G, Hj, (HR k Hk). apply Z.eqb_neq. intro C. apply (D _ (exit_in (nth (Z.to_nat j) rows []) l)). rewrite <- C. apply exit_in. }
    rewrite (filter_none R), app_nil_r. reflexivity.
  - rewrite (filter_ext_in _ (fun k => Z.eqb (fst (exit_leaf (nth (Z.to_nat k) rows []) r)) (fst (exit_leaf (nth (Z.to_nat j) rows []) r))) R).
    2:{ intros k Hk. rewrite !G, Hj, (HR k Hk). reflexivity. }
    rewrite (filter_ext_in _ (fun _ => false) L).
    2:{ intros k Hk. rewrite !G, Hj, (HL k Hk). apply Z.eqb_neq. intro C. apply (D (fst (exit_leaf (nth (Z.to_nat k) rows []) l))); [apply exit_in|]. rewrite C. apply exit_in. }
    rewrite (filter_none L). reflexivity.
Qed.
End Mates.

(** ** The visit of a tree *)
Lemma accum_total (g : Z -> RE) l : forall a, accum (N:=RE) g l a = a + Rtotal (map g l).
Proof.
  unfold accum. induction l as [|i l IH]; intros a; cbn [fold_left map]; [change (Rtotal []) with 0; lra|].
  rewrite IH, Rtotal_cons. change (nf32 (n:=RE) (nadd (n:=RE) a (g i))) with (a + g i). lra.
Qed.
Lemma normalised_mean (g : Z -> RE) s l : s = Rtotal (map g l) -> normalised (N:=RE) s (Z.of_nat (length l)) = mean g l.
Proof.
  intros ->. unfold normalised, mean. destruct (Z.ltb_spec 0 (Z.of_nat (length l))) as [H|H].
  - change (Rtotal (map g l) / IZR (Z.of_nat (length l)) = Rtotal (map g l) / INR (length l)). rewrite INR_IZR_INZ. reflexivity.
  - destruct l; [|cbn [length] in H; lia]. cbn [map length INR]. change (Rtotal []) with 0. lra.
Qed.

Section Real.
Variable (red : list RE -> RE) (rows : list (list RE)) (nf : nat) (yt : list RE).
Hypothesis red_exact : forall l, red l = Rtotal l.
Notation n := (Z.of_nat (length rows)).
Notation g := (yv (N:=RE) yt).
Implicit Type t : tree Z RE.

Lemma mean_left_ok L : mean_left (N:=RE) yt L = mean g L.
Proof. apply normalised_mean. rewrite accum_total. change (nzero (n:=RE)) with 0. lra. Qed.
Lemma mean_right_ok L : mean_right (N:=RE) yt L = mean g L.
Proof. apply normalised_mean. rewrite accum_total, map_rev, Rtotal_rev. change (nzero (n:=RE)) with 0. lra. Qed.

Lemma zget_pv (s : fstate (N:=RE)) j v : zget (f_yt s) j = Some v -> pv s j = v.
Proof. unfold zget, pv. destruct (Z.ltb_spec j 0); [discriminate|]. intros H0. apply nth_error_nth. exact H0. Qed.

Lemma single_mates t j M : (vis t M = false) -> In j M -> NoDup M -> Permutation (leaf_mates rows t j M) M.
Proof.
  intros V Hj ND. unfold leaf_mates. destruct t as [i v|i f thr l r].
  - cbn [exit_leaf fst]. rewrite (filter_ext _ (fun _ => true)) by (intro; apply Z.eqb_refl).
    replace (filter (fun _ => true) M) with M; [apply Permutation_refl|]. clear. induction M; cbn [filter]; congruence.
  - unfold vis in V. cbn [is_split andb] in V. apply Nat.leb_gt in V. destruct M as [|k [|k' M]]; [destruct Hj| |cbn [length] in V; lia].
    destruct Hj as [->|[]]. cbn [filter]. rewrite Z.eqb_refl. apply Permutation_refl.
Qed.

Lemma terms_gain f thr (s : fstate (N:=RE)) L R :
  (forall k, In k L -> goes_left rows f thr k = true) -> (forall k, In k R -> goes_left rows f thr k = false) ->
  (forall j, In j (L ++ R) -> pv s j = mean g (L ++ R)) ->
  Rtotal (map (term (N:=RE) g (pv s) (fun j => if goes_left rows f thr j then mean_left yt L else mean_right yt R)) (L ++ R)) = gain g (f, L, R).
Proof.
  intros HL HR Hp.
  rewrite (Rtotal_ext _ (fun i => (g i - mean g (L ++ R)) ^ 2 - (g i - (if goes_left rows f thr i then mean g L else mean g R)) ^ 2)).
  2:{ intros i Hi. unfold term, sq_err. rewrite (Hp i Hi), mean_left_ok, mean_right_ok.
      destruct (goes_left rows f thr i); reflexivity. }
  rewrite Rtotal_minus. unfold gain. cbn [fst snd]. unfold sse_mean at 1. unfold sse at 1.
  rewrite (map_app (fun i => (g i - (if goes_left rows f thr i then mean g L else mean g R)) ^ 2)), Rtotal_app.
  rewrite (Rtotal_ext (fun i => (g i - (if goes_left rows f thr i then mean g L else mean g R)) ^ 2) (fun i => (g i - mean g L) ^ 2) L)
    by (intros i Hi; rewrite (HL i Hi); reflexivity).
  rewrite (Rtotal_ext (fun i => (g i - (if goes_left rows f thr i then mean g L else mean g R)) ^ 2) (fun i => (g i - mean g R) ^ 2) R)
    by (intros i Hi; rewrite (HR i Hi); reflexivity).
  unfold sse_mean, sse. lra.
Qed.

Lemma run_real t M s s' : run red rows yt t M s s' -> NoDup (marks t) -> Forall (fun f => (0 <= f < Z.of_nat nf)%Z) (splits t) ->
  length (f_imp s) = nf -> (forall j, In j M -> pv s j = mean g M) ->
  (forall j, In j M -> pv s' j = mean g (leaf_mates rows t j M)) /\
  (forall j, ~ In j M -> zget (f_yt s') j = zget (f_yt s) j) /\
  length (f_imp s') = nf /\
  (forall f, (0 <= f < Z.of_nat nf)%Z ->
     nth (Z.to_nat f) (f_imp s') 0 = nth (Z.to_nat f) (f_imp s) 0 + gains_of g f (visited rows t M) / INR (length rows)).
Proof.
  induction 1 as [i f thr l r M L R s s1 s2 s3 P ND HL HR HST Rr1 IHr Rr2 Rl1 IHl Rl2]. intros NDm Hfs Hlen Hp.
  pose proof NDm as NDm'. cbn [marks] in NDm'. inversion NDm' as [|? ? _ NDm2]; subst. apply NoDup_app_inv in NDm2. destruct NDm2 as [NDl [NDr _]]. clear NDm'.
  cbn [splits] in Hfs. inversion Hfs as [|? ? Hf Hfs']; subst. apply Forall_app in Hfs'. destruct Hfs' as [HfL HfR].
  pose proof (Permutation_NoDup P ND) as NDLR. apply NoDup_app_inv in NDLR. destruct NDLR as [NL [NR DLR]].
  destruct HST as [_ [C1 [_ [C3 C4]]]].
  assert (Hp' : forall j, In j (L ++ R) -> pv s j = mean g (L ++ R)).
  { intros j Hj. rewrite (Hp j (Permutation_in _ (Permutation_sym P) Hj)). apply mean_perm. exact P. }
  assert (L1 : length (f_imp s1) = length (f_imp s)) by (rewrite C1; apply upd_length).
  assert (P1L : forall j, In j L -> pv s1 j = mean g L).
  { intros j Hj. rewrite <- mean_left_ok. apply zget_pv. rewrite (C3 j (in_or_app _ _ _ (or_introl Hj))), (HL j Hj). reflexivity. }
  assert (P1R : forall j, In j R -> pv s1 j = mean g R).
  { intros j Hj. rewrite <- mean_right_ok. apply zget_pv. rewrite (C3 j (in_or_app _ _ _ (or_intror Hj))), (HR j Hj). reflexivity. }
  assert (I1 : forall h, (0 <= h < Z.of_nat (length (f_imp s)))%Z ->
     nth (Z.to_nat h) (f_imp s1) 0 = nth (Z.to_nat h) (f_imp s) 0 + (if Z.eqb f h then gain g (f, L, R) else 0) / INR (length rows)).
  { intros h Hh. rewrite C1, nth_upd.
    assert (E : ((Z.to_nat f =? Z.to_nat h) && (Z.to_nat h <? length (f_imp s)))%nat = Z.eqb f h).
    { destruct (Nat.eqb_spec (Z.to_nat f) (Z.to_nat h)), (Nat.ltb_spec (Z.to_nat h) (length (f_imp s))), (Z.eqb_spec f h); try reflexivity; lia. }
    rewrite E. destruct (Z.eqb_spec f h) as [->|]; [|lra].
    rewrite red_exact, (terms_gain h thr s L R HL HR Hp').
    change (nth (Z.to_nat h) (f_imp s) 0 + gain g (h, L, R) / IZR n = nth (Z.to_nat h) (f_imp s) 0 + gain g (h, L, R) / INR (length rows)).
    rewrite INR_IZR_INZ. reflexivity. }
  assert (R2 : (forall j, In j R -> pv s2 j = mean g (leaf_mates rows r j R)) /\
     (forall j, ~ In j R -> zget (f_yt s2) j = zget (f_yt s1) j) /\ length (f_imp s2) = length (f_imp s) /\
     (forall h, (0 <= h < Z.of_nat (length (f_imp s)))%Z ->
        nth (Z.to_nat h) (f_imp s2) 0 = nth (Z.to_nat h) (f_imp s1) 0 + gains_of g h (if vis r R then visited rows r R else []) / INR (length rows))).
  { destruct (vis r R) eqn:V.
    - apply (IHr eq_refl NDr HfR L1 P1R).
    - rewrite (Rr2 eq_refl). split; [|split; [reflexivity|split; [exact L1|]]].
      + intros j Hj. rewrite (P1R j Hj). apply mean_perm, Permutation_sym, single_mates; assumption.
      + intros h _. unfold gains_of. cbn [filter map]. change (Rtotal []) with 0. lra. }
  destruct R2 as [A2 [B2 [L2 I2]]].
  assert (P2L : forall j, In j L -> pv s2 j = mean g L).
  { intros j Hj. rewrite <- (P1L j Hj). unfold pv. assert (Z2 := B2 j (DLR j Hj)).
    assert (Z1 := C3 j (in_or_app _ _ _ (or_introl Hj))). rewrite Z1 in Z2. apply zget_pv in Z1, Z2. unfold pv in Z1, Z2. congruence. }
  assert (R3 : (forall j, In j L -> pv s3 j = mean g (leaf_mates rows l j L)) /\
     (forall j, ~ In j L -> zget (f_yt s3) j = zget (f_yt s2) j) /\ length (f_imp s3) = length (f_imp s) /\
     (forall h, (0 <= h < Z.of_nat (length (f_imp s)))%Z ->
        nth (Z.to_nat h) (f_imp s3) 0 = nth (Z.to_nat h) (f_imp s2) 0 + gains_of g h (if vis l L then visited rows l L else []) / INR (length rows))).
  { destruct (vis l L) eqn:V.
    - apply (IHl eq_refl NDl HfL L2 P2L).
    - rewrite (Rl2 eq_refl). split; [|split; [reflexivity|split; [exact L2|]]].
      + intros j Hj. rewrite (P2L j Hj). apply mean_perm, Permutation_sym, single_mates; assumption.
      + intros h _. unfold gains_of. cbn [filter map]. change (Rtotal []) with 0. lra. }
  destruct R3 as [A3 [B3 [L3 I3]]].
  split; [|split; [|split; [exact L3|]]].
  - intros j Hj. rewrite (mean_perm g _ _ (mates_perm rows _ j _ _ P)).
    destruct (mates_node rows i f thr l r j L R NDm HL HR) as [ML MR].
    apply (Permutation_in _ P) in Hj. apply in_app_or in Hj. destruct Hj as [Hj|Hj].
    + rewrite (ML (HL j Hj)). apply A3. exact Hj.
    + rewrite (MR (HR j Hj)). rewrite <- (A2 j Hj). assert (NL' : ~ In j L) by (intro C; apply (DLR j C Hj)).
      assert (Z3 := B3 j NL'). unfold pv. unfold zget in Z3.
      destruct (Z.ltb_spec j 0) as [N0|N0].
      * exfalso. assert (Z1 := C3 j (in_or_app _ _ _ (or_intror Hj))). unfold zget in Z1. destruct (Z.ltb_spec j 0); [discriminate|lia].
      * clear - Z3. revert Z3. generalize (Z.to_nat j) as k. intros k E. destruct (nth_error (f_yt s2) k) as [v|] eqn:Q.
        -- rewrite (nth_error_nth _ _ _ E), (nth_error_nth _ _ _ Q). reflexivity.
        -- apply nth_error_None in E, Q. rewrite !nth_overflow by assumption. reflexivity.
  - intros j Hj. rewrite B3, B2, C4; [reflexivity| | |]; intro C; apply Hj; apply (Permutation_in _ (Permutation_sym P)); try exact C; apply in_or_app; auto.
  - intros h Hh. rewrite (I3 h Hh), (I2 h Hh), (I1 h Hh).
    rewrite (gains_alike g h _ _ (visited_run rows _ f thr l r i M L R eq_refl P HL HR)), gains_cons, gains_app. cbn [fst]. lra.
Qed.

(** The gains add up to the reduction of the error. *)
Lemma telescope t : NoDup (marks t) -> forall M, NoDup M ->
  Rtotal (map (gain g) (visited rows t M)) = sse_mean g M - sse g (fun i => mean g (leaf_mates rows t i M)) M.
Proof.
  assert (T : forall t M, NoDup M -> vis t M = false -> sse_mean g M = sse g (fun i => mean g (leaf_mates rows t i M)) M).
  { intros u M ND V. unfold sse_mean. apply sse_ext. intros i Hi. apply mean_perm, Permutation_sym, single_mates; assumption. }
  induction t as [i v|i f thr l IHl r IHr]; intros NDm M ND.
  - cbn [visited map]. change (Rtotal []) with 0. rewrite (T (Leaf i v) M ND eq_refl). lra.
  - pose proof NDm as NDm'. cbn [marks] in NDm'. inversion NDm' as [|? ? _ NDm2]; subst. apply NoDup_app_inv in NDm2. destruct NDm2 as [NDl [NDr _]]. clear NDm'.
    specialize (IHl NDl). specialize (IHr NDr). cbn [visited].
    set (L := lefts rows f thr M). set (R := rights rows f thr M).
    assert (P : Permutation M (L ++ R)).
    { unfold L, R, lefts, rights. clear. induction M as [|x M IH]; [constructor|]. cbn [filter]. destruct (goes_left rows f thr x); cbn [negb app].
      - constructor. exact IH.
      - apply Permutation_cons_app. exact IH. }
    assert (HL : forall k, In k L -> goes_left rows f thr k = true) by (intros k Hk; apply filter_In in Hk; apply Hk).
    assert (HR : forall k, In k R -> goes_left rows f thr k = false) by (intros k Hk; apply filter_In in Hk; apply negb_true_iff, Hk).
    pose proof (Permutation_NoDup P ND) as NDLR. pose proof NDLR as NDLR'. apply NoDup_app_inv in NDLR'. destruct NDLR' as [NL [NR _]].
    cbn [map]. rewrite Rtotal_cons, map_app, Rtotal_app.
    assert (EL : Rtotal (map (gain g) (if (2 <=? length L)%nat then visited rows l L else [])) = sse_mean g L - sse g (fun i => mean g (leaf_mates rows l i L)) L).
    { destruct (2 <=? length L)%nat eqn:Q; [apply IHl; exact NL|]. cbn [map]. change (Rtotal []) with 0. rewrite (T l L NL); [lra|]. unfold vis. rewrite Q. apply andb_false_r. }
    assert (ER : Rtotal (map (gain g) (if (2 <=? length R)%nat then visited rows r R else [])) = sse_mean g R - sse g (fun i => mean g (leaf_mates rows r i R)) R).
    { destruct (2 <=? length R)%nat eqn:Q; [apply IHr; exact NR|]. cbn [map]. change (Rtotal []) with 0. rewrite (T r R NR); [lra|]. unfold vis. rewrite Q. apply andb_false_r. }
    rewrite EL, ER. unfold gain. cbn [fst snd]. rewrite (sse_mean_perm g _ _ P), (sse_perm g _ _ _ P), sse_app.
    rewrite (sse_ext g (fun i0 => mean g (leaf_mates rows (Node i f thr l r) i0 M)) (fun i0 => mean g (leaf_mates rows l i0 L)) L).
    2:{ intros k Hk. rewrite (mean_perm g _ _ (mates_perm rows _ k _ _ P)).
        destruct (mates_node rows i f thr l r k L R NDm HL HR) as [ML _]. rewrite (ML (HL k Hk)). reflexivity. }
    rewrite (sse_ext g (fun i0 => mean g (leaf_mates rows (Node i f thr l r) i0 M)) (fun i0 => mean g (leaf_mates rows r i0 R)) R).
    2:{ intros k Hk. rewrite (mean_perm g _ _ (mates_perm rows _ k _ _ P)).
        destruct (mates_node rows i f thr l r k L R NDm HL HR) as [_ MR]. rewrite (MR (HR k Hk)). reflexivity. }
    lra.
Qed.
End Real.
