(** Rounding errors of the metrics of one query. *)
From Coq Require Import List ZArith Reals Lia Lra Psatz Permutation Bool.
From Verif Require Import Base Lists Num M_Dataset M_Metrics S_Metrics L_Metrics L_MetricsR S_Ensemble M_MetricSums S_MetricError L_MetricError.
Import ListNotations.
Local Open Scope R_scope.

Lemma Rtotal_perm l l' : Permutation l l' -> Rtotal l = Rtotal l'.
Proof. induction 1; cbn [Rtotal fold_right]; unfold Rtotal in *; lra. Qed.
Lemma Rtotal_app l l' : Rtotal (l ++ l') = Rtotal l + Rtotal l'.
Proof. induction l as [|a l IH]; cbn [Rtotal fold_right app]; unfold Rtotal in *; lra. Qed.
Lemma nsum_total (l : list R) : nsum (N:=RE) l = Rtotal l.
Proof.
  assert (G : forall a, fold_left Rplus l a = a + Rtotal l).
  { induction l as [|x l IH]; intros a; cbn [fold_left Rtotal fold_right]; [lra|]. rewrite IH. unfold Rtotal. lra. }
  unfold nsum. change (nadd (n:=RE)) with Rplus. rewrite G. change (nzero (n:=RE)) with 0. lra.
Qed.

Section Errors.
Context {N : num}.
Variables (val : N -> R) (u eta : R) (most : nat).
Hypothesis F : float_like N val u eta most.
Notation cl k e := (fun (a : N) (r : R) => close u k e (val a) r).

Let U : 0 <= u <= / 4 := fl_u _ _ _ _ _ F.
Let E0 : 0 <= eta <= 1 := fl_eta _ _ _ _ _ F.

Lemma close_zero k e : 0 <= e -> close u k e (val nzero) 0.
Proof.
  intros He. rewrite (fl_zero _ _ _ _ _ F). pose proof (qk_ge1 u U k). unfold close.
  assert (0 <= growth u ^ k * (0 + e)) by (apply Rmult_le_pos; lra). repeat split; lra.
Qed.
Lemma val_add k d e a b a' b' : 0 <= d -> 0 <= e -> cl k d a a' -> cl k e b b' -> cl (S k) (d + e) (nadd a b) (a' + b').
Proof.
  intros Hd He Ha Hb. pose proof (close_add u k d e _ _ _ _ Ha Hb) as H.
  pose proof (fl_add _ _ _ _ _ F a b) as Hr. apply (close_round u U 0) in Hr; [|lra|exact (proj1 H)].
  pose proof (close_trans u U 1 k 0 (d + e) _ _ _ ltac:(lra) ltac:(lra) Hr H) as T. rewrite Rplus_0_l in T. exact T.
Qed.
Lemma val_mul k j d a b a' b' : 0 <= d -> cl k d a a' -> cl j 0 b b' -> b' <= 1 -> cl (S (k + j)) (eta + d) (nmul a b) (a' * b').
Proof.
  intros Hd Ha Hb H1. pose proof (close_mul u U k j d _ _ _ _ Hd Ha Hb H1) as H.
  pose proof (fl_mul _ _ _ _ _ F a b) as Hr. apply (close_round u U eta) in Hr; [|lra|exact (proj1 H)].
  exact (close_trans u U 1 (k + j) eta d _ _ _ ltac:(lra) Hd Hr H).
Qed.
Lemma val_mul2 k j d e a b a' b' : 0 <= d <= 1 -> 0 <= e -> cl k d a a' -> cl j e b b' -> a' <= 1 -> b' <= 1 ->
  cl (S (2 * k + j)) (eta + (d + 2 * e)) (nmul a b) (a' * b').
Proof.
  intros Hd He Ha Hb H1 H2. pose proof (close_mul2 u U k j d e _ _ _ _ Hd He Ha Hb H1 H2) as H.
  pose proof (fl_mul _ _ _ _ _ F a b) as Hr. apply (close_round u U eta) in Hr; [|lra|exact (proj1 H)].
  exact (close_trans u U 1 (2 * k + j) eta (d + 2 * e) _ _ _ ltac:(lra) ltac:(lra) Hr H).
Qed.
Lemma val_div k j d e a b a' b' : 0 <= d -> 0 <= e -> 0 < b' -> d <= e * b' -> cl k d a a' -> cl j 0 b b' -> cl (S (k + j)) (eta + e) (ndiv a b) (a' / b').
Proof.
  intros Hd He H1 H2 Ha Hb. pose proof (close_pos u U j _ _ Hb H1) as P.
  pose proof (close_div u U k j d e _ _ _ _ Hd P H1 H2 Ha Hb) as H.
  assert (Z : val b <> 0) by lra. pose proof (fl_div _ _ _ _ _ F a b Z) as Hr.
  apply (close_round u U eta) in Hr; [|lra|exact (proj1 H)].
  exact (close_trans u U 1 (k + j) eta e _ _ _ ltac:(lra) He Hr H).
Qed.
Lemma val_count n : (n <= most)%nat -> cl 0 0 (nofnat n) (INR n).
Proof. intros H. cbv beta. rewrite (fl_count _ _ _ _ _ F n H). apply close_refl. apply pos_INR. Qed.
Lemma val_one : cl 0 0 none 1.
Proof. cbv beta. rewrite (fl_one _ _ _ _ _ F). apply close_refl. lra. Qed.

(** Sums in any order. *)
Lemma val_sums k e j l x l' : 0 <= e -> sums j l x -> Forall2 (cl k e) l l' ->
  close u (k + j) (INR (length l) * e) (val x) (Rtotal l').
Proof.
  intros He H. revert l'. induction H as [j|j x|j l1 l2 x1 x2 H1 IH1 H2 IH2|j l l2 x P H IH]; intros l' Hl.
  - inversion Hl; subst. cbn [length INR Rtotal fold_right]. rewrite Rmult_0_l. apply close_zero. lra.
  - inversion Hl as [|a b ? ? Hab Hn]; subst. inversion Hn; subst. cbn [length Rtotal fold_right].
    change (INR 1) with 1. rewrite Rplus_0_r, Rmult_1_l. apply (close_weaken u U k e); [exact Hab|lia|lra|lra].
  - apply Forall2_app_inv_l in Hl as (m1 & m2 & A1 & A2 & ->). rewrite Rtotal_app, app_length, plus_INR, Rmult_plus_distr_r.
    replace (k + S j)%nat with (S (k + j)) by lia.
    apply val_add; try (apply Rmult_le_pos; [apply pos_INR|exact He]); auto.
  - destruct (Permutation_Forall2 (Permutation_sym P) Hl) as (m & Pm & Hm). rewrite (Rtotal_perm _ _ Pm).
    rewrite <- (Permutation_length P). apply IH. exact Hm.
Qed.

Lemma sequential_sums (l : list N) : sums (length l) l (nsum l).
Proof.
  induction l as [|a l IH] using rev_ind; [constructor|].
  unfold nsum. rewrite fold_left_app, app_length, Nat.add_1_r. cbn [fold_left]. apply sums_add; [exact IH|constructor].
Qed.

(** ** Shared parts *)
Variable argsort : list N -> list nat.
Variable rargsort : list R -> list nat.
Hypothesis same_order : forall l, rargsort (map val l) = argsort l.
Hypothesis complete : forall l, length (argsort l) = length l.

Lemma order_map k s : order (N:=RE) rargsort k (map val s) = order argsort k s.
Proof. unfold order. rewrite same_order. reflexivity. Qed.
Lemma order_length k s : (length (order argsort k s) <= length s)%nat.
Proof.
  unfold order. destruct k as [k|]; [|rewrite rev_length, complete; lia].
  unfold slice_to. rewrite firstn_length, rev_length, complete. lia.
Qed.
Lemma take_map {A B} (f : A -> B) y idx :
  take (map f y) idx = match take y idx with Ok l => Ok (map f l) | Err e => Err e end.
Proof.
  unfold take. induction idx as [|i idx IH]; cbn [mapM]; [reflexivity|].
  rewrite nth_error_map. destruct (nth_error y i) as [v|]; cbn [option_map of_option bind]; [|reflexivity].
  rewrite IH. clear IH. destruct (mapM _ idx); reflexivity.
Qed.
Lemma take_length {A} (y : list A) idx l : take y idx = Ok l -> length l = length idx.
Proof.
  unfold take. revert l. induction idx as [|i idx IH]; cbn [mapM]; intros l H; [injection H as <-; reflexivity|].
  destruct (of_option IndexError (nth_error y i)) as [v|]; cbn [bind] in H; [|discriminate].
  destruct (mapM _ idx) as [r|]; cbn [bind] in H; [|discriminate]. injection H as <-. cbn [length]. rewrite (IH r eq_refl). reflexivity.
Qed.
Lemma take_In {A} (y : list A) idx l v : take y idx = Ok l -> In v l -> In v y.
Proof.
  unfold take. revert l. induction idx as [|i idx IH]; cbn [mapM]; intros l H Hv; [injection H as <-; destruct Hv|].
  destruct (nth_error y i) as [w|] eqn:E; cbn [of_option bind] in H; [|discriminate].
  destruct (mapM _ idx) as [r|]; cbn [bind] in H; [|discriminate]. injection H as <-.
  destruct Hv as [<-|Hv]; [exact (nth_error_In _ _ E)|exact (IH r eq_refl Hv)].
Qed.
Lemma take_order_length {A} k (y : list A) s l : take y (order argsort k s) = Ok l -> (length l <= length s)%nat.
Proof. intros H. rewrite (take_length _ _ _ H). apply order_length. Qed.
Lemma count_map (p : N -> bool) (p' : R -> bool) l : (forall v, p v = p' (val v)) -> count p' (map val l) = count p l.
Proof.
  intros H. unfold count. induction l as [|a l IH]; cbn [map filter length]; [reflexivity|].
  rewrite <- H. destruct (p a); cbn [length]; rewrite IH; reflexivity.
Qed.
Lemma count_le {A} (p : A -> bool) l : (count p l <= length l)%nat.
Proof. unfold count. induction l as [|a l IH]; cbn [filter length]; [lia|]. destruct (p a); cbn [length]; lia. Qed.

Lemma nmax_map y : nmax (N:=RE) (map val y) = match nmax y with Ok m => Ok (val m) | Err e => Err e end.
Proof.
  destruct y as [|a y]; [reflexivity|]. cbn [map nmax]. f_equal.
  revert a. induction y as [|b y IH]; intros a; cbn [map fold_left]; [reflexivity|].
  rewrite (fl_leb _ _ _ _ _ F a b), (fl_leb _ _ _ _ _ F b b). change (nleb (n:=RE)) with Rleb.
  replace (Rleb (val b) (val b)) with true by (symmetry; apply Rleb_true; lra). cbn [negb]. rewrite orb_false_r.
  destruct (Rleb (val a) (val b)); apply IH.
Qed.
Lemma nmax_In (y : list N) m : nmax y = Ok m -> In m y /\ forall v, In v y -> val v <= val m.
Proof.
  destruct y as [|a y]; [discriminate|]. cbn [nmax]. intros H. injection H as H.
  revert a H. induction y as [|b y IH]; intros a H; cbn [fold_left] in H.
  - subst. split; [left; reflexivity|]. intros v [<-|[]]. lra.
  - rewrite (fl_leb _ _ _ _ _ F a b), (fl_leb _ _ _ _ _ F b b) in H.
    replace (Rleb (val b) (val b)) with true in H by (symmetry; apply Rleb_true; lra). cbn [negb] in H. rewrite orb_false_r in H.
    destruct (Rleb (val a) (val b)) eqn:L.
    + apply Rleb_true in L. destruct (IH b H) as [I1 I2]. split; [right; exact I1|].
      intros v [<-|Hv]; [apply Rle_trans with (val b); [exact L|apply I2; left; reflexivity]|exact (I2 v Hv)].
    + apply Rleb_false in L. destruct (IH a H) as [I1 I2]. split; [destruct I1 as [I1|I1]; [left; exact I1|right; right; exact I1]|].
      intros v [<-|[<-|Hv]]; [apply I2; left; reflexivity|apply Rle_trans with (val a); [lra|apply I2; left; reflexivity]|apply I2; right; exact Hv].
Qed.

(** ** Fractions *)
Lemma fraction_error a b : (a <= most)%nat -> (b <= most)%nat -> b <> 0%nat ->
  cl 1 eta (ndiv (nofnat a) (nofnat b)) (INR a / INR b).
Proof.
  intros Ha Hb Hz. assert (P : 0 < INR b) by (apply lt_0_INR; lia).
  pose proof (val_div 0 0 0 0 _ _ _ _ ltac:(lra) ltac:(lra) P ltac:(lra) (val_count a Ha) (val_count b Hb)) as H.
  rewrite Rplus_0_r in H. exact H.
Qed.

Section Query.
Variables y s : list N.
Hypothesis same_size : length y = length s.
Hypothesis counted : (length y < most)%nat.
Notation n := (length y).

Lemma len_order k : (length (order argsort k s) <= n)%nat.
Proof. rewrite same_size. apply order_length. Qed.

Lemma precision_error k t : agree (cl 1 eta) (precision argsort k t y s) (precision (N:=RE) rargsort k (val t) (map val y) (map val s)).
Proof.
  unfold precision. rewrite order_map, (take_map val). pose proof (len_order k) as HL.
  destruct (take y (order argsort k s)) as [l|e] eqn:E; cbn [bind agree]; [|reflexivity].
  destruct (Nat.eqb_spec (length (order argsort k s)) 0) as [Z|Z]; cbn [agree]; [reflexivity|].
  rewrite (count_map (fun v => nleb t v)) by (intros v; exact (fl_leb _ _ _ _ _ F t v)).
  change (nofnat (N:=RE)) with (fun m => IZR (Z.of_nat m)). cbv beta. rewrite <- !INR_IZR_INZ.
  change (ndiv (n:=RE)) with Rdiv. pose proof (count_le (fun v => nleb t v) l). rewrite (take_length _ _ _ E) in H.
  apply fraction_error; lia.
Qed.
Lemma precision_max_error k : agree (cl 1 eta) (precision_max argsort k y s) (precision_max (N:=RE) rargsort k (map val y) (map val s)).
Proof.
  unfold precision_max. rewrite order_map, (take_map val), nmax_map. pose proof (len_order k) as HL.
  destruct (take y (order argsort k s)) as [l|e] eqn:E; cbn [bind agree]; [|reflexivity].
  destruct (nmax y) as [t|e]; cbn [bind agree]; [|reflexivity].
  destruct (Nat.eqb_spec (length (order argsort k s)) 0) as [Z|Z]; cbn [agree]; [reflexivity|].
  rewrite (count_map (fun v => nleb t v)) by (intros v; exact (fl_leb _ _ _ _ _ F t v)).
  change (nofnat (N:=RE)) with (fun m => IZR (Z.of_nat m)). cbv beta. rewrite <- !INR_IZR_INZ.
  change (ndiv (n:=RE)) with Rdiv. pose proof (count_le (fun v => nleb t v) l). rewrite (take_length _ _ _ E) in H.
  apply fraction_error; lia.
Qed.
Lemma recall_error r k t : 0 <= val r ->
  agree (cl 1 eta) (recall argsort r k t y s) (recall (N:=RE) rargsort (val r) k (val t) (map val y) (map val s)).
Proof.
  intros Hr. unfold recall. rewrite order_map, (take_map val). pose proof (len_order k) as HL.
  destruct (take y (order argsort k s)) as [l|e] eqn:E; cbn [bind agree]; [|reflexivity].
  rewrite !(count_map (fun v => nleb t v)) by (intros v; exact (fl_leb _ _ _ _ _ F t v)).
  destruct (Nat.eqb_spec (count (fun v => nleb t v) y) 0) as [Z|Z]; cbn [negb agree].
  - apply (close_weaken u U 0 0); [apply close_refl; exact Hr|lia|lra|lra].
  - change (nofnat (N:=RE)) with (fun m => IZR (Z.of_nat m)). cbv beta. rewrite <- !INR_IZR_INZ.
    change (ndiv (n:=RE)) with Rdiv. pose proof (count_le (fun v => nleb t v) l). rewrite (take_length _ _ _ E) in H.
    pose proof (count_le (fun v => nleb t v) y). apply fraction_error; lia.
Qed.

Lemma mrr_loop_map t idx : forall i, mrr_loop (N:=RE) (val t) (map val y) i idx = mrr_loop t y i idx.
Proof.
  induction idx as [|j idx IH]; intros i; cbn [mrr_loop]; [reflexivity|].
  rewrite nth_error_map. destruct (nth_error y j) as [v|]; cbn [option_map of_option bind]; [|reflexivity].
  rewrite (fl_leb _ _ _ _ _ F t v). change (nleb (n:=RE)) with Rleb. destruct (Rleb (val t) (val v)); [reflexivity|apply IH].
Qed.
Lemma mrr_loop_bound t idx : forall i p, mrr_loop t y i idx = Ok (Some p) -> (p < i + length idx)%nat.
Proof.
  induction idx as [|j idx IH]; intros i p H; cbn [mrr_loop] in H; [discriminate|].
  destruct (nth_error y j) as [v|]; cbn [of_option bind] in H; [|discriminate].
  cbn [length]. destruct (nleb t v); [injection H as <-; lia|apply IH in H; lia].
Qed.
Lemma mrr_error k t : agree (cl 2 eta) (mrr argsort k t y s) (mrr (N:=RE) rargsort k (val t) (map val y) (map val s)).
Proof.
  unfold mrr. rewrite order_map, mrr_loop_map. pose proof (len_order k) as HL.
  destruct (mrr_loop t y 0 (order argsort k s)) as [[i|]|e] eqn:E; cbn [bind agree]; [| |reflexivity].
  - apply mrr_loop_bound in E.
    change (nofnat (N:=RE) i) with (IZR (Z.of_nat i)). rewrite <- INR_IZR_INZ.
    change (ndiv (n:=RE)) with Rdiv. change (nadd (n:=RE)) with Rplus. change (none (n:=RE)) with 1.
    pose proof (pos_INR i).
    assert (D : cl 1 0 (nadd (nofnat i) none) (INR i + 1)).
    { pose proof (val_add 0 0 0 _ _ _ _ ltac:(lra) ltac:(lra) (val_count i ltac:(lia)) val_one) as H1. rewrite Rplus_0_r in H1. exact H1. }
    pose proof (val_div 0 1 0 0 none (nadd (nofnat i) none) 1 (INR i + 1) ltac:(lra) ltac:(lra) ltac:(lra) ltac:(lra) val_one D) as H1. rewrite Rplus_0_r in H1. exact H1.
  - change (nzero (n:=RE)) with 0. apply close_zero. lra.
Qed.

(** ** Average precision *)
Lemma map_fold l : forall i rel (acc : N) (racc : R) e, 0 <= e -> (i + length l <= most)%nat -> (rel <= i)%nat -> cl (S i) e acc racc ->
  let r := fold_left map_step l (i, rel, acc) in
  let r' := fold_left (map_step (N:=RE)) (map val l) (i, rel, racc) in
  fst (fst r) = (i + length l)%nat /\ fst (fst r') = fst (fst r) /\ snd (fst r') = snd (fst r) /\ (snd (fst r) <= i + length l)%nat /\
  cl (S (i + length l)) (e + INR (length l) * eta) (snd r) (snd r').
Proof.
  induction l as [|v l IH]; intros i rel acc racc e He Hm Hrel Ha; cbn [map fold_left length].
  - cbv zeta. cbn [fst snd]. rewrite Nat.add_0_r. change (INR 0) with 0. rewrite Rmult_0_l, Rplus_0_r. repeat split; auto; apply Ha.
  - cbn [length] in Hm.
    assert (B : nltb (n:=RE) nzero (val v) = nltb nzero v).
    { rewrite (fl_ltb _ _ _ _ _ F). rewrite (fl_zero _ _ _ _ _ F). reflexivity. }
    assert (S1 : map_step (i, rel, acc) v = if nltb nzero v then (S i, S rel, nadd acc (ndiv (nofnat (S rel)) (nofnat (S i)))) else (S i, rel, acc)) by reflexivity.
    assert (S2 : map_step (N:=RE) (i, rel, racc) (val v) = if nltb nzero v then (S i, S rel, racc + INR (S rel) / INR (S i)) else (S i, rel, racc)).
    { rewrite <- B, !INR_IZR_INZ. reflexivity. }
    replace (i + S (length l))%nat with (S i + length l)%nat by lia.
    rewrite (S_INR (length l)). replace (e + (INR (length l) + 1) * eta) with ((e + eta) + INR (length l) * eta) by ring.
    rewrite S1, S2. clear S1 S2 B.
    destruct (nltb nzero v).
    + apply IH; [lra|lia|lia|].
      apply val_add; [lra|lra|exact Ha|].
      apply (close_weaken u U 1 eta); [apply fraction_error; lia|lia|lra|lra].
    + apply IH; [lra|lia|lia|]. apply (close_weaken u U (S i) e); [exact Ha|lia|lra|lra].
Qed.
Lemma map_error r k : 0 <= val r ->
  agree (cl (n + 2) (INR (n + 1) * eta)) (average_precision argsort r k y s)
        (average_precision (N:=RE) rargsort (val r) k (map val y) (map val s)).
Proof.
  intros Hr. unfold average_precision. rewrite order_map, (take_map val). pose proof (len_order k) as HL.
  destruct (take y (order argsort k s)) as [l|e] eqn:E; cbn [bind agree]; [|reflexivity].
  pose proof (take_length _ _ _ E) as El.
  pose proof (map_fold l 0 0 nzero (nzero (n:=RE)) 0 (Rle_refl 0) ltac:(lia) ltac:(lia) (close_zero 1 0 (Rle_refl 0))) as MF.
  cbv zeta in MF.
  destruct (fold_left map_step l (0%nat, 0%nat, nzero)) as [[i rel] acc].
  match goal with |- context [fold_left (@map_step RE) ?a ?b] =>
    change (fold_left (@map_step RE) (map val l) (0%nat, 0%nat, nzero)) with (fold_left (@map_step RE) a b) in MF;
    destruct (fold_left (@map_step RE) a b) as [[i' rel'] acc'] end.
  destruct MF as (H1 & H2 & H3 & H4 & H5).
  cbn [fst snd] in *. subst i' rel'. cbn [Nat.add] in *. rewrite Rplus_0_l in H5.
  rewrite (count_map (fun v => negb (neqb v nzero)) (fun v => negb (neqb (n:=RE) v nzero))).
  2:{ intros v. rewrite (fl_eqb _ _ _ _ _ F), (fl_zero _ _ _ _ _ F). reflexivity. }
  pose proof (count_le (fun v => negb (neqb v nzero)) y) as HC.
  set (c := count (fun v => negb (neqb v nzero)) y) in *. clearbody c.
  destruct (0 <? rel)%nat; cbn [agree].
  - destruct (Nat.eqb_spec (Nat.min (length (order argsort k s)) c) 0) as [Z|Z]; cbn [agree]; [reflexivity|].
    change (nofnat (N:=RE)) with (fun m => IZR (Z.of_nat m)). cbv beta. rewrite <- !INR_IZR_INZ.
    change (ndiv (n:=RE)) with Rdiv.
    set (b := Nat.min (length (order argsort k s)) c) in *. assert (Hb : (b <= n)%nat) by lia. clearbody b.
    assert (1 <= INR b) by (change 1 with (INR 1); apply le_INR; lia).
    assert (L : INR (length l) * eta <= INR n * eta) by (apply Rmult_le_compat_r; [lra|]; apply le_INR; lia).
    pose proof (pos_INR (length l)). pose proof (pos_INR n). assert (0 <= INR (length l) * eta) by (apply Rmult_le_pos; lra).
    pose proof (val_div (S (length l)) 0 (INR (length l) * eta) (INR n * eta) acc (nofnat b) acc' (INR b) ltac:(assumption) ltac:(lra) ltac:(lra) ltac:(nra) H5 (val_count b ltac:(lia))) as D.
    apply (close_weaken u U _ _ _ _ _ _ D); [lia| |lra]. rewrite plus_INR. change (INR 1) with 1. lra.
  - apply (close_weaken u U 0 0); [apply close_refl; exact Hr|lia| |lra]. apply Rmult_le_pos; [apply pos_INR|lra].
Qed.
End Query.
End Errors.
