(** Proofs about cumulative curves (C54) in exact arithmetic. *)
From Coq Require Import List ZArith Bool Lia Arith Reals Lra.
From Verif Require Import Base Num Lists M_Dataset M_NDCG S_Dataset M_Ensemble S_Ensemble L_Ensemble L_Ensemble3 L_Topology3
  M_Effectiveness S_Effectiveness L_Effectiveness.
Import ListNotations.
Local Open Scope Z_scope.

Lemma cumsum_diff l c0 s : cumsum_from s (diff (c0 :: l)) = map (fun c => s + c - c0) l.
Proof.
  revert c0 s. induction l as [|c l IH]; intros c0 s; [reflexivity|]. change (diff (c0 :: c :: l)) with (c - c0 :: diff (c :: l)). cbn [cumsum_from map].
  f_equal; [lia|]. rewrite IH. apply map_ext. intros; lia.
Qed.

Section Search.
Context {N : Num.num}.
Lemma search_length (a edges : list N) : length (search_inclusive a edges) = length edges.
Proof. induction edges as [|e r IH]; [reflexivity|]. destruct r as [|e' r]; [reflexivity|]. change (search_inclusive a (e :: e' :: r)) with (below a e :: search_inclusive a (e' :: r)). cbn [length] in *. lia. Qed.
Lemma search_nth (a edges : list N) i e : nth_error edges i = Some e ->
  nth_error (search_inclusive a edges) i = Some (if (S i =? length edges)%nat then not_above a e else below a e).
Proof.
  revert i. induction edges as [|x r IH]; intros i H; [destruct i; discriminate|]. destruct r as [|x' r].
  - destruct i as [|i]; [injection H as ->; reflexivity|destruct i; discriminate].
  - change (search_inclusive a (x :: x' :: r)) with (below a x :: search_inclusive a (x' :: r)). destruct i as [|i].
    + injection H as ->. reflexivity.
    + cbn [nth_error] in *. rewrite (IH i H). reflexivity.
Qed.
End Search.

Lemma count_split (u : list R) (lo : R) (p : R -> bool) : (forall v, (v < lo)%R -> p v = true) ->
  (length (filter p u) = length (filter (fun v => Rltb v lo) u) + length (filter (fun v => Rleb lo v && p v) u))%nat.
Proof.
  intros H. induction u as [|v u IH]; [reflexivity|]. cbn [filter]. destruct (Rltb v lo) eqn:E1.
  - apply Rltb_true in E1. rewrite (H v E1). assert (E2 : Rleb lo v = false) by (apply Rleb_false; exact E1). rewrite E2. cbn [andb length]. lia.
  - apply Rltb_false in E1. assert (E2 : Rleb lo v = true) by (apply Rleb_true; exact E1). rewrite E2. cbn [andb]. destruct (p v); cbn [length]; lia.
Qed.

Definition edge (lo hi : R) (bins i : nat) : R := if (i =? bins)%nat then hi else (INR i * ((hi - lo) / INR bins) + lo)%R.
Lemma linspace_real (lo hi : R) bins : (0 < bins)%nat -> linspace (N:=RE) lo hi bins = map (edge lo hi bins) (seq 0 (S bins)).
Proof.
  intros H. unfold linspace. destruct (Nat.eqb_spec bins 0) as [->|_]; [lia|]. rewrite seq_S, map_app. cbn [map Nat.add]. f_equal.
  - apply map_ext_in. intros i Hi. apply in_seq in Hi. unfold edge. destruct (Nat.eqb_spec i bins); [lia|].
    change ((IZR (Z.of_nat i) * ((hi - lo) / IZR (Z.of_nat bins)) + lo)%R = (INR i * ((hi - lo) / INR bins) + lo)%R). rewrite !INR_IZR_INZ. reflexivity.
  - unfold edge. rewrite Nat.eqb_refl. reflexivity.
Qed.
Lemma edge_0 lo hi bins : (0 < bins)%nat -> edge lo hi bins 0 = lo.
Proof. intros H. unfold edge. destruct (Nat.eqb_spec 0 bins); [lia|]. cbn [INR]. lra. Qed.
Lemma step_nonneg lo hi bins : (0 < bins)%nat -> (lo <= hi)%R -> (0 <= (hi - lo) / INR bins)%R.
Proof. intros H Hle. apply Rmult_le_pos; [lra|]. left. apply Rinv_0_lt_compat, lt_0_INR. exact H. Qed.
Lemma edge_step lo hi bins i : (0 < bins)%nat -> edge lo hi bins i = (INR i * ((hi - lo) / INR bins) + lo)%R \/ i = bins.
Proof. intros H. unfold edge. destruct (Nat.eqb_spec i bins); [right; assumption|left; reflexivity]. Qed.
Lemma edge_linear lo hi bins i : (0 < bins)%nat -> edge lo hi bins i = (INR i * ((hi - lo) / INR bins) + lo)%R.
Proof.
  intros H. destruct (edge_step lo hi bins i H) as [E| ->]; [exact E|]. unfold edge. rewrite Nat.eqb_refl. field. apply not_0_INR. lia.
Qed.
Lemma edge_mono lo hi bins i j : (0 < bins)%nat -> (lo <= hi)%R -> (i <= j)%nat -> (edge lo hi bins i <= edge lo hi bins j)%R.
Proof.
  intros H Hle Hij. rewrite !edge_linear by exact H. apply Rplus_le_compat_r, Rmult_le_compat_r; [apply step_nonneg; assumption|apply le_INR; exact Hij].
Qed.
Lemma upper_edge_eq lo hi bins i : (0 < bins)%nat -> upper_edge lo hi bins i = edge lo hi bins (S i).
Proof. intros H. rewrite edge_linear by exact H. unfold upper_edge. field. apply not_0_INR. lia. Qed.

Lemma non_decreasing_map (f : nat -> R) a n : (forall i, (a <= i < a + n)%nat -> (f i <= f (S i))%R) -> non_decreasing (N:=RE) (map f (seq a (S n))) = true.
Proof.
  revert a. induction n as [|n IH]; intros a H; [reflexivity|]. change (seq a (S (S n))) with (a :: S a :: seq (S (S a)) n). cbn [map].
  change (Rleb (f a) (f (S a)) && non_decreasing (N:=RE) (map f (seq (S a) (S n))) = true). rewrite IH by (intros; apply H; lia).
  assert (E : Rleb (f a) (f (S a)) = true) by (apply Rleb_true, H; lia). rewrite E. reflexivity.
Qed.
Lemma linspace_sorted lo hi bins : (0 < bins)%nat -> non_decreasing (N:=RE) (linspace (N:=RE) lo hi bins) = Rleb lo hi.
Proof.
  intros H. rewrite linspace_real by exact H. destruct (Rleb lo hi) eqn:E.
  - apply Rleb_true in E. apply non_decreasing_map. intros i _. apply edge_mono; [exact H|exact E|lia].
  - apply Rleb_false in E. destruct bins as [|b]; [lia|]. change (seq 0 (S (S b))) with (0%nat :: 1%nat :: seq 2 b). cbn [map].
    change (Rleb (edge lo hi (S b) 0) (edge lo hi (S b) 1) && non_decreasing (N:=RE) (edge lo hi (S b) 1 :: map (edge lo hi (S b)) (seq 2 b)) = false).
    assert (F : Rleb (edge lo hi (S b) 0) (edge lo hi (S b) 1) = false).
    { apply Rleb_false. rewrite !edge_linear by lia. change (INR 0) with 0%R. change (INR 1) with 1%R. assert (((hi - lo) / INR (S b)) < 0)%R.
      { apply Ropp_lt_cancel. rewrite Ropp_0. replace (- ((hi - lo) / INR (S b)))%R with ((lo - hi) * / INR (S b))%R by (unfold Rdiv; ring).
        apply Rmult_lt_0_compat; [lra|]. apply Rinv_0_lt_compat, lt_0_INR. lia. } lra. }
    rewrite F. reflexivity.
Qed.

Lemma cumulative_real (u : list R) lo hi bins :  (0 < bins)%nat -> (lo <= hi)%R ->
  exists curve, cumulative (N:=RE) u (linspace (N:=RE) lo hi bins) = Ok curve /\ is_curve lo hi bins u curve.
Proof.
  intros Hb Hle. unfold cumulative, histogram. rewrite linspace_sorted by exact Hb. assert (E : Rleb lo hi = true) by (apply Rleb_true; exact Hle). rewrite E. cbn [bind].
  eexists. split; [reflexivity|]. set (edges := linspace (N:=RE) lo hi bins).
  assert (HL : length edges = S bins) by (unfold edges; rewrite linspace_real, map_length, seq_length by exact Hb; reflexivity).
  assert (Hn : forall i, (i <= bins)%nat -> nth_error edges i = Some (edge lo hi bins i)).
  { intros i Hi. unfold edges. rewrite linspace_real by exact Hb. rewrite nth_error_map', nth_error_seq. destruct (Nat.ltb_spec i (S bins)); [reflexivity|lia]. }
  assert (Hc : forall i, (i <= bins)%nat -> nth_error (search_inclusive (N:=RE) u edges) i = Some (if (i =? bins)%nat then not_above (N:=RE) u (edge lo hi bins i) else below (N:=RE) u (edge lo hi bins i))).
  { intros i Hi. rewrite (search_nth (N:=RE) u edges i _ (Hn i Hi)), HL. reflexivity. }
  destruct (search_inclusive (N:=RE) u edges) as [|c0 cs] eqn:Es; [pose proof (search_length (N:=RE) u edges) as G; rewrite Es, HL in G; discriminate|].
  assert (HLc : length cs = bins) by (pose proof (search_length (N:=RE) u edges) as G; rewrite Es, HL in G; cbn [length] in G; lia).
  unfold cumsum. rewrite cumsum_diff. split; [rewrite !map_length; exact HLc|]. intros i Hi.
  assert (E0 : c0 = below (N:=RE) u lo). { pose proof (Hc 0%nat ltac:(lia)) as G. cbn [nth_error] in G. rewrite edge_0 in G by exact Hb. destruct (Nat.eqb_spec 0 bins); [lia|]. congruence. }
  pose proof (Hc (S i) ltac:(lia)) as G. cbn [nth_error] in G. rewrite !nth_error_map', G. cbn [option_map]. f_equal. destruct u as [|v0 u0] eqn:Eu; [reflexivity|]. rewrite <- Eu. f_equal.
  unfold fraction. change (nofnat (N:=RE) (length u)) with (IZR (Z.of_nat (length u))). rewrite <- INR_IZR_INZ.
  match goal with |- nf32 (ndiv (nofZ ?z) _) = _ => change (nf32 (n:=RE) (ndiv (n:=RE) (nofZ z) (INR (length u)))) with (IZR z / INR (length u))%R; assert (Ez : IZR z = INR (length (filter (inside lo hi bins i) u))) end; [|rewrite Ez; reflexivity].
  rewrite INR_IZR_INZ. f_equal. rewrite <- Eu in *. rewrite E0. unfold below, not_above, inside.
  destruct (Nat.eqb_spec (S i) bins) as [Ei|Ei].
  - assert (Eh : edge lo hi bins (S i) = hi) by (unfold edge; rewrite Ei, Nat.eqb_refl; reflexivity). rewrite Eh.
    pose proof (count_split u lo (fun v => Rleb v hi)) as K.
    change (0 + Z.of_nat (@length R (filter (fun v => Rleb v hi) u)) - Z.of_nat (@length R (filter (fun v => Rltb v lo) u)) = Z.of_nat (@length R (filter (fun v => Rleb lo v && Rleb v hi) u))).
    rewrite K by (intros v Hv; apply Rleb_true; lra). lia.
  - rewrite upper_edge_eq by exact Hb. set (e1 := edge lo hi bins (S i)). pose proof (count_split u lo (fun v => Rltb v e1)) as K.
    change (0 + Z.of_nat (@length R (filter (fun v => Rltb v e1) u)) - Z.of_nat (@length R (filter (fun v => Rltb v lo) u)) = Z.of_nat (@length R (filter (fun v => Rleb lo v && Rltb v e1) u))).
    rewrite K; [lia|]. intros v Hv. apply Rltb_true. pose proof (edge_mono lo hi bins 0 (S i) Hb Hle ltac:(lia)) as G2. rewrite edge_0 in G2 by exact Hb. unfold e1. lra.
Qed.
Lemma cumulative_reversed (u : list R) lo hi bins : (0 < bins)%nat -> (hi < lo)%R -> cumulative (N:=RE) u (linspace (N:=RE) lo hi bins) = Err ValueError.
Proof.
  intros Hb Hlt. unfold cumulative, histogram. rewrite linspace_sorted by exact Hb. assert (E : Rleb lo hi = false) by (apply Rleb_false; exact Hlt). rewrite E. reflexivity.
Qed.
Lemma cumulative_0 (u : list R) lo hi : cumulative (N:=RE) u (linspace (N:=RE) lo hi 0) = Ok [].
Proof. reflexivity. Qed.

(** The usual facts about such curves. *)
Lemma filter_le {A} (p q : A -> bool) l : (forall x, In x l -> p x = true -> q x = true) -> (length (filter p l) <= length (filter q l))%nat.
Proof.
  induction l as [|x l IH]; intros H; [reflexivity|]. cbn [filter]. specialize (IH (fun y Hy => H y (or_intror Hy))). destruct (p x) eqn:E.
  - rewrite (H x (or_introl eq_refl) E). cbn [length]. lia.
  - destruct (q x); cbn [length]; lia.
Qed.
Lemma fraction_range p u : u <> [] -> (0 <= fraction p u <= 1)%R.
Proof.
  intros H. unfold fraction. assert (Hl : (0 < INR (length u))%R) by (apply lt_0_INR; destruct u; [congruence|cbn; lia]).
  split; [apply Rmult_le_pos; [apply pos_INR|left; apply Rinv_0_lt_compat; exact Hl]|].
  apply (Rmult_le_reg_r (INR (length u))); [exact Hl|]. unfold Rdiv. rewrite Rmult_assoc, Rinv_l, Rmult_1_r, Rmult_1_l by lra. apply le_INR, filter_length_le.
Qed.
Lemma fraction_mono p q u : u <> [] -> (forall v, In v u -> p v = true -> q v = true) -> (fraction p u <= fraction q u)%R.
Proof.
  intros H Hpq. unfold fraction. apply Rmult_le_compat_r; [left; apply Rinv_0_lt_compat, lt_0_INR; destruct u; [congruence|cbn; lia]|]. apply le_INR, filter_le. exact Hpq.
Qed.
Lemma curve_grows lo hi bins u curve : (lo <= hi)%R -> is_curve lo hi bins u curve -> grows_in_unit curve.
Proof.
  intros Hle [HL Hc]. split.
  - intros i v Hv. assert (Hi : (i < bins)%nat) by (rewrite <- HL; apply nth_error_Some; congruence). rewrite (Hc i Hi) in Hv. destruct u as [|x u'] eqn:Eu; [discriminate|].
    injection Hv as <-. apply fraction_range. discriminate.
  - intros i j v w Hij Hv Hw. assert (Hj : (j < bins)%nat) by (rewrite <- HL; apply nth_error_Some; congruence). rewrite (Hc i ltac:(lia)) in Hv. rewrite (Hc j Hj) in Hw.
    destruct u as [|x u'] eqn:Eu; [discriminate|]. injection Hv as <-. injection Hw as <-. apply fraction_mono; [discriminate|]. intros y _ Hy. unfold inside in *.
    apply andb_true_iff in Hy. destruct Hy as [H1 H2]. rewrite H1. cbn [andb]. destruct (Nat.eqb_spec (S i) bins) as [Ei|Ei].
    + replace (S j =? bins)%nat with true by (symmetry; apply Nat.eqb_eq; lia). exact H2.
    + rewrite upper_edge_eq in H2 by lia. apply Rltb_true in H2. destruct (Nat.eqb_spec (S j) bins) as [Ej|Ej].
      * apply Rleb_true. pose proof (edge_mono lo hi bins (S i) bins ltac:(lia) Hle ltac:(lia)) as G. unfold edge in G at 2. rewrite Nat.eqb_refl in G. lra.
      * apply Rltb_true. rewrite upper_edge_eq by lia. pose proof (edge_mono lo hi bins (S i) (S j) ltac:(lia) Hle ltac:(lia)). lra.
Qed.
Lemma curve_ends lo hi bins u curve : (0 < bins)%nat -> u <> [] -> is_curve lo hi bins u curve -> (forall v, In v u -> (lo <= v <= hi)%R) ->
  nth_error curve (bins - 1) = Some (Some 1%R).
Proof.
  intros Hb Hu [_ Hc] Hin. rewrite (Hc (bins - 1)%nat ltac:(lia)). destruct u as [|x u'] eqn:Eu; [congruence|]. rewrite <- Eu in *. do 2 f_equal.
  unfold fraction. assert (E : filter (inside lo hi bins (bins - 1)) u = u).
  { clear - Hb Hin. induction u as [|v u IH]; [reflexivity|]. cbn [filter]. destruct (Hin v (or_introl eq_refl)) as [H1 H2]. unfold inside at 1.
    replace (S (bins - 1) =? bins)%nat with true by (symmetry; apply Nat.eqb_eq; lia).
    assert (E1 : Rleb lo v = true) by (apply Rleb_true; exact H1). assert (E2 : Rleb v hi = true) by (apply Rleb_true; exact H2). rewrite E1, E2. cbn [andb]. f_equal. apply IH. intros w Hw. apply Hin. right. exact Hw. }
  rewrite E. field. apply not_0_INR. rewrite Eu. discriminate.
Qed.

(** Extremes. *)
Lemma nmin_real (l : list R) x : nmin (N:=RE) l = Ok x -> least (fun v => In v l) x.
Proof.
  destruct l as [|a l]; [discriminate|]. cbn [nmin]. intros H. injection H as <-. unfold least.
  enough (G : forall m, (In (fold_left (fun m v => if nleb (n:=RE) v m then v else m) l m) (m :: l)) /\ forall v, In v (m :: l) -> (fold_left (fun m v => if nleb (n:=RE) v m then v else m) l m <= v)%R) by (apply G).
  induction l as [|b l IH]; intros m; cbn [fold_left]; [split; [left; reflexivity|intros v [->|[]]; apply Rle_refl]|].
  destruct (IH (if nleb (n:=RE) b m then b else m)) as [I1 I2]. change (nleb (n:=RE) b m) with (Rleb b m) in *. destruct (Rleb b m) eqn:E.
  - apply Rleb_true in E. split; [right; exact I1|]. intros v [<-|Hv]; [|apply I2; exact Hv]. apply Rle_trans with b; [apply I2; left; reflexivity|exact E].
  - apply Rleb_false in E. split; [destruct I1 as [I1|I1]; [left; exact I1|right; right; exact I1]|]. intros v [<-|[<-|Hv]]; [apply I2; left; reflexivity| |apply I2; right; exact Hv].
    apply Rle_trans with m; [apply I2; left; reflexivity|lra].
Qed.
Lemma nmax_real (l : list R) x : nmax (N:=RE) l = Ok x -> greatest (fun v => In v l) x.
Proof.
  destruct l as [|a l]; [discriminate|]. cbn [nmax]. intros H. injection H as <-. unfold greatest.
  assert (E : forall m, fold_left (fun m v => if nleb (n:=RE) m v || negb (nleb (n:=RE) v v) then v else m) l m = fold_left (fun m v => if nleb (n:=RE) m v then v else m) l m).
  { induction l as [|b l IH]; intros m; cbn [fold_left]; [reflexivity|]. rewrite IH. f_equal. change (nleb (n:=RE)) with Rleb.
    replace (Rleb b b) with true by (symmetry; apply Rleb_true; lra). cbn [negb]. rewrite orb_false_r. reflexivity. }
  rewrite E. clear E.
  enough (G : forall m, (In (fold_left (fun m v => if nleb (n:=RE) m v then v else m) l m) (m :: l)) /\ forall v, In v (m :: l) -> (v <= fold_left (fun m v => if nleb (n:=RE) m v then v else m) l m)%R) by (apply G).
  induction l as [|b l IH]; intros m; cbn [fold_left]; [split; [left; reflexivity|intros v [->|[]]; apply Rle_refl]|].
  destruct (IH (if nleb (n:=RE) m b then b else m)) as [I1 I2]. change (nleb (n:=RE) m b) with (Rleb m b) in *. destruct (Rleb m b) eqn:E.
  - apply Rleb_true in E. split; [right; exact I1|]. intros v [<-|Hv]; [|apply I2; exact Hv]. apply Rle_trans with b; [exact E|apply I2; left; reflexivity].
  - apply Rleb_false in E. split; [destruct I1 as [I1|I1]; [left; exact I1|right; right; exact I1]|]. intros v [<-|[<-|Hv]]; [apply I2; left; reflexivity| |apply I2; right; exact Hv].
    apply Rle_trans with m; [lra|apply I2; left; reflexivity].
Qed.
Lemma edges_of_real (u : list R) bins start stop edges : edges_of (N:=RE) u bins start stop = Ok edges ->
  0 <= bins /\ exists lo hi, bound_of start (least (fun v => In v u)) lo /\ bound_of stop (greatest (fun v => In v u)) hi /\ edges = linspace (N:=RE) lo hi (Z.to_nat bins).
Proof.
  unfold edges_of. intros H. apply bind_ok in H. destruct H as [lo [Hlo H]]. apply bind_ok in H. destruct H as [hi [Hhi H]].
  destruct (Z.ltb_spec bins 0); [discriminate|]. injection H as <-. split; [lia|].
  exists (match start with Some v => v | None => lo end), (match stop with Some v => v | None => hi end). split; [|split; [|reflexivity]].
  - destruct start; [reflexivity|apply nmin_real; exact Hlo].
  - destruct stop; [reflexivity|apply nmax_real; exact Hhi].
Qed.
Lemma coordinates_real lo hi bins numpy c : bin_coordinates (N:=RE) (linspace (N:=RE) lo hi (Z.to_nat bins)) bins numpy = Ok c -> 0 < bins ->
  length c = Z.to_nat bins /\ forall i, (i < Z.to_nat bins)%nat -> nth_error c i = Some (lo + INR i * (hi - lo) / INR (Z.to_nat bins) + 1 / INR (Z.to_nat bins))%R.
Proof.
  intros H Hb. unfold bin_coordinates in H. destruct (negb numpy && (bins =? 0)); [discriminate|]. injection H as <-.
  rewrite linspace_real by lia. rewrite seq_S, map_app. cbn [map]. rewrite removelast_last. rewrite !map_length, seq_length. split; [reflexivity|]. intros i Hi.
  rewrite !nth_error_map', nth_error_seq. destruct (Nat.ltb_spec i (Z.to_nat bins)); [|lia]. cbn [option_map Nat.add]. f_equal.
  change (nadd (n:=RE) (edge lo hi (Z.to_nat bins) i) (ndiv (n:=RE) none (nofZ bins))) with (edge lo hi (Z.to_nat bins) i + 1 / IZR bins)%R.
  rewrite edge_linear by lia. rewrite (INR_IZR_INZ (Z.to_nat bins)), Z2Nat.id by lia. field. apply not_0_IZR. lia.
Qed.
Lemma coordinates_nonzero (edges : list R) bins c : bin_coordinates (N:=RE) edges bins false = Ok c -> bins <> 0.
Proof. unfold bin_coordinates. cbn [negb andb]. destruct (Z.eqb_spec bins 0); [discriminate|]. intros _. assumption. Qed.
