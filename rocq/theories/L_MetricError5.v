(** Rounding errors of the means over the queries of a data set. *)
From Coq Require Import List ZArith Reals Lia Lra Psatz Permutation Bool.
From Verif Require Import Base Lists Num M_Dataset M_Metrics S_Metrics L_Metrics L_MetricsR L_MetricsR2 S_Ensemble M_MetricSums S_MetricError L_MetricError L_MetricError2 L_MetricError3.
Import ListNotations.
Local Open Scope R_scope.

Lemma sequential {N : num} (argsort : list N -> list nat) :
  (forall m y s, per_query_by nsum argsort m y s = eval_per_query argsort m y s) /\
  (forall k y s, mse_by nsum argsort k y s = mse_pq argsort k y s) /\
  (forall f d s, eval_by (N:=N) nsum f d s = metric_eval (N:=N) f d s) /\
  (forall k d s, mse_eval_by nsum argsort k d s = mse_eval argsort k d s).
Proof.
  split; [|split; [|split]]; intros; try reflexivity.
  destruct m as [| | | | |g k| | | | |]; try reflexivity.
Qed.

Lemma slice_map {A B} (f : A -> B) i j (l : list A) : slice i j (map f l) = map f (slice i j l).
Proof. unfold slice. rewrite map_length, skipn_map, firstn_map. reflexivity. Qed.

Lemma related_length {A B} (P : A -> B -> Prop) l l' : Forall2 P l l' -> length l = length l'.
Proof. induction 1; cbn [length]; congruence. Qed.

Lemma agree_bind {A B A' B'} (P : A -> B -> Prop) (Q : A' -> B' -> Prop) x y (f : A -> res A') (g : B -> res B') : agree P x y ->
  (forall a b, P a b -> agree Q (f a) (g b)) -> agree Q (bind x f) (bind y g).
Proof. destruct x, y; cbn [agree bind]; intros H H'; try contradiction; auto. Qed.

Section Means.
Context {N : num}.
Variables (val : N -> R) (u eta : R) (most : nat).
Hypothesis F : float_like N val u eta most.
Let U : 0 <= u <= / 4 := fl_u _ _ _ _ _ F.
Let E0 : 0 <= eta <= 1 := fl_eta _ _ _ _ _ F.
Variable sum : list N -> N.
Variable D : nat -> nat.
Hypothesis sums_ok : forall l, sums (D (length l)) l (sum l).
Hypothesis D_mono : forall a b, (a <= b)%nat -> (D a <= D b)%nat.
Notation cl k e := (fun (a : N) (r : R) => close u k e (val a) r).

Lemma queries_map (d : dataset N) (s : list N) :
  metric_queries (N:=RE) (real_dataset val d) (map val s) =
  map (fun t => (fst t, (map val (fst (snd t)), map val (snd (snd t))))) (metric_queries d s).
Proof.
  unfold metric_queries. change (query_iterator (real_dataset val d)) with (query_iterator d). rewrite map_map.
  apply map_ext. intros t. cbn [fst snd]. change (ds_y (real_dataset val d)) with (map val (ds_y d)). rewrite !slice_map. reflexivity.
Qed.

Lemma set_related {A B} (P : A -> B -> Prop) l l' i a b : Forall2 P l l' -> P a b ->
  agree (Forall2 P) (py_set l i a) (py_set l' i b).
Proof.
  intros H Hab. assert (L := related_length _ _ _ H). unfold py_set; cbv zeta. rewrite <- L.
  assert (S : forall n, Forall2 P (upd l n a) (upd l' n b)).
  { clear L. revert Hab. induction H as [|x x' l l' Hx Hl IH]; intros Hab n; [destruct n; constructor|].
    destruct n; cbn [upd]; constructor; auto. }
  repeat (match goal with |- context [if ?c then _ else _] => destruct c end; cbn [bind agree]); try reflexivity; apply S.
Qed.

Lemma fold_related {A A' S S'} (P : S -> S' -> Prop) (h : A -> A') (f : S -> A -> res S) (g : S' -> A' -> res S') l :
  (forall x, In x l -> forall s s', P s s' -> agree P (f s x) (g s' (h x))) ->
  forall s s', P s s' -> agree P (foldM f l s) (foldM g (map h l) s').
Proof.
  induction l as [|x l IH]; intros H s s' Hs; cbn [foldM map]; [exact Hs|].
  pose proof (H x (or_introl eq_refl) s s' Hs) as A1.
  destruct (f s x) as [t|e]; destruct (g s' (h x)) as [t'|e']; cbn [agree] in A1; try contradiction; cbn [bind agree]; [|exact A1].
  apply IH; [|exact A1]. intros y Hy. apply H. right. exact Hy.
Qed.

Lemma stored k e a a' : 0 <= e -> cl k e a a' -> cl (S k) (e + eta) (nf32 a) a'.
Proof.
  intros He H. cbv beta in *. pose proof (close_round u U eta (val a) _ ltac:(lra) (proj1 H) (fl_f32 _ _ _ _ _ F a)) as R.
  pose proof (close_trans u U 1 k eta e _ _ _ ltac:(lra) He R H) as T.
  apply (close_weaken u U _ _ _ _ _ _ T); [lia|lra|lra].
Qed.

Lemma zeros_related k e n : 0 <= e -> Forall2 (cl k e) (repeat nzero n) (repeat (nzero (n:=RE)) n).
Proof. intros He. induction n as [|n IH]; cbn [repeat]; constructor; [apply (close_zero val u eta most F); exact He|exact IH]. Qed.

Lemma combine_map_r {A B C} (f : B -> C) (l : list A) (m : list B) : combine l (map f m) = map (fun p => (fst p, f (snd p))) (combine l m).
Proof. revert m. induction l as [|a l IH]; intros [|b m]; cbn [combine map fst snd]; try reflexivity. rewrite IH. reflexivity. Qed.

Lemma scores_error k e (f : list N -> list N -> res N) (g : list R -> list R -> res R) (d : dataset N) (s : list N) : 0 <= e ->
  (forall t, In t (metric_queries d s) -> agree (cl k e) (f (fst (snd t)) (snd (snd t))) (g (map val (fst (snd t))) (map val (snd (snd t))))) ->
  agree (fun r r' => Forall2 (cl (S k) (e + eta)) (snd r) (snd r') /\ length (snd r) = n_queries d /\
                     fst r = nanmean_by sum (snd r) /\ fst r' = nanmean (N:=RE) (snd r'))
    (eval_by sum f d s) (metric_eval (N:=RE) g (real_dataset val d) (map val s)).
Proof.
  intros He H. unfold eval_by, metric_eval. rewrite queries_map, map_length, combine_map_r.
  change (n_queries (real_dataset val d)) with (n_queries d).
  set (P := fun (a : list N) (b : list R) => Forall2 (cl (S k) (e + eta)) a b /\ length a = n_queries d).
  pose proof (fold_related P (fun p => (fst p, (fst (snd p), (map val (fst (snd (snd p))), map val (snd (snd (snd p)))))))
    (fun acc t => do x <- f (fst (snd (snd t))) (snd (snd (snd t))); py_set acc (Z.of_nat (fst t)) (nf32 x))
    (fun acc t => do x <- g (fst (snd (snd t))) (snd (snd (snd t))); py_set acc (Z.of_nat (fst t)) (nf32 (n:=RE) x))
    (combine (seq 0 (length (metric_queries d s))) (metric_queries d s))) as FR.
  match type of FR with ?A -> _ => assert (H1 : A) end.
  { intros t Ht a b [Hab HL]. cbn [fst snd]. destruct t as [i t]. apply in_combine_r in Ht. specialize (H t Ht). cbn [fst snd].
    destruct (f (fst (snd t)) (snd (snd t))) as [x|ex]; destruct (g (map val (fst (snd t))) (map val (snd (snd t)))) as [x'|ex'];
      cbn [agree] in H; try contradiction; cbn [bind agree]; [|exact H].
    pose proof (set_related (cl (S k) (e + eta)) a b (Z.of_nat i) (nf32 x) x' Hab (stored k e x x' He H)) as Q.
    change (nf32 (n:=RE) x') with x'.
    destruct (py_set a (Z.of_nat i) (nf32 x)) as [a1|] eqn:E1; destruct (py_set b (Z.of_nat i) x') as [b1|]; cbn [agree] in *; try exact Q.
    split; [exact Q|]. rewrite <- HL. revert E1. unfold py_set; cbv zeta.
    repeat (match goal with |- context [if ?c then _ else _] => destruct c end; cbn [bind]); intros E1; inversion E1; apply upd_length. }
  specialize (FR H1 (repeat nzero (n_queries d)) (repeat (nzero (n:=RE)) (n_queries d))).
  match type of FR with ?A -> _ => assert (H2 : A) by (split; [apply zeros_related; lra|apply repeat_length]) end.
  specialize (FR H2).
  refine (agree_bind P _ _ _ _ _ FR _). intros a b [A B]. cbn [agree fst snd].
  auto.
Qed.

Lemma no_nan (l : list N) : filter (fun v => negb (nisnan v)) l = l.
Proof. induction l as [|x l IH]; cbn [filter]; [reflexivity|]. rewrite (fl_nan _ _ _ _ _ F). cbn [negb]. rewrite IH. reflexivity. Qed.
Lemma no_nan_R (l : list R) : filter (fun v => negb (nisnan (n:=RE) v)) l = l.
Proof. induction l as [|x l IH]; cbn [filter]; [reflexivity|]. change (nisnan (n:=RE) x) with false. cbn [negb]. rewrite IH. reflexivity. Qed.

Lemma mean_error k e (l : list N) (l' : list R) : 0 <= e -> l <> [] -> (length l <= most)%nat -> Forall2 (cl k e) l l' ->
  cl (k + D (length l) + 1) (e + eta) (nanmean_by sum l) (nanmean (N:=RE) l').
Proof.
  intros He Hl Hm H. unfold nanmean_by, nanmean. rewrite no_nan, no_nan_R. pose proof (related_length _ _ _ H) as L.
  replace (@length (car RE) l') with (length l) by exact L.
  pose proof (sum_error val u eta most F sum D sums_ok D_mono k e l l' (length l) He H (le_n _)) as S.
  assert (P : 1 <= INR (length l)) by (destruct l; [contradiction|]; change 1 with (INR 1); apply le_INR; cbn [length]; lia).
  assert (P2 : 0 <= INR (length l) * e) by (apply Rmult_le_pos; lra).
  assert (C : cl 0 0 (nofnat (length l)) (INR (length l))) by (apply (val_count val u eta most F); exact Hm).
  pose proof (val_div val u eta most F (k + D (length l)) 0 (INR (length l) * e) e (sum l) (nofnat (length l)) (nsum (N:=RE) l') (INR (length l))
    P2 He ltac:(lra) ltac:(lra) S C) as Q.
  replace (nofnat (N:=RE) (length l)) with (INR (length l)) by (unfold nofnat; cbn [nofZ RE RN]; symmetry; rewrite INR_IZR_INZ; reflexivity).
  apply (close_weaken u U _ _ _ _ _ _ Q); [lia|lra|lra].
Qed.

Lemma eval_error k e (f : list N -> list N -> res N) (g : list R -> list R -> res R) (d : dataset N) (s : list N) : 0 <= e ->
  (0 < n_queries d <= most)%nat ->
  (forall t, In t (metric_queries d s) -> agree (cl k e) (f (fst (snd t)) (snd (snd t))) (g (map val (fst (snd t))) (map val (snd (snd t))))) ->
  agree (fun r r' => cl (k + 2 + D (n_queries d)) (e + eta + eta) (fst r) (fst r') /\ Forall2 (cl (S k) (e + eta)) (snd r) (snd r'))
    (eval_by sum f d s) (metric_eval (N:=RE) g (real_dataset val d) (map val s)).
Proof.
  intros He Hn H. pose proof (scores_error k e f g d s He H) as Q.
  destruct (eval_by sum f d s) as [r|]; destruct (metric_eval (N:=RE) g (real_dataset val d) (map val s)) as [r'|]; cbn [agree] in *; try exact Q.
  destruct r as [m v], r' as [m' v']. cbn [fst snd] in *. destruct Q as (A & B & C & E). split; [|exact A]. subst m m'.
  assert (NE : v <> []) by (intros Z; rewrite Z in B; cbn [length] in B; lia).
  pose proof (mean_error (S k) (e + eta) v v' ltac:(lra) NE ltac:(lia) A) as M. rewrite B in M.
  apply (close_weaken u U _ _ _ _ _ _ M); [lia|lra|lra].
Qed.

(** MSE.eval: every query is divided by the number of documents and the quotients are added. *)
Variable argsort : list N -> list nat.
Variable rargsort : list R -> list nat.
Hypothesis same_order : forall l, rargsort (map val l) = argsort l.
Hypothesis complete : forall l, length (argsort l) = length l.
Lemma mse_eval_error k (d : dataset N) (s : list N) n : (0 < n_instances d <= most)%nat -> (n < most)%nat ->
  (forall t, In t (metric_queries d s) -> length (fst (snd t)) = length (snd (snd t)) /\ (length (fst (snd t)) <= n)%nat) ->
  agree (fun r r' => cl (5 + D n + D (n_queries d)) (INR (n_queries d) * (INR n * eta + eta + eta)) (fst r) (fst r') /\
                     Forall2 (cl (5 + D n) (INR n * eta + eta + eta)) (snd r) (snd r'))
    (mse_eval_by sum argsort k d s) (mse_eval (N:=RE) rargsort k (real_dataset val d) (map val s)).
Proof.
  intros Hi Hn HQ. unfold mse_eval_by, mse_eval. rewrite queries_map.
  change (n_queries (real_dataset val d)) with (n_queries d).
  replace (n_instances (real_dataset val d)) with (n_instances d) by (unfold n_instances, real_dataset; cbn [ds_y]; symmetry; apply map_length).
  pose proof (pos_INR n) as Pn. assert (L0 : 0 <= INR n * eta) by (apply Rmult_le_pos; lra).
  set (P := fun (a : list N) (b : list R) => Forall2 (cl (5 + D n) (INR n * eta + eta + eta)) a b /\ length a = n_queries d).
  pose proof (fold_related P (fun t => (fst t, (map val (fst (snd t)), map val (snd (snd t)))))
    (fun acc t => do x <- mse_by sum argsort k (fst (snd t)) (snd (snd t)); py_set acc (fst t) (nf32 (ndiv x (nofnat (n_instances d)))))
    (fun acc t => do x <- mse_pq (N:=RE) rargsort k (fst (snd t)) (snd (snd t)); py_set acc (fst t) (nf32 (n:=RE) (ndiv (n:=RE) x (nofnat (N:=RE) (n_instances d)))))
    (metric_queries d s)) as FR.
  match type of FR with ?A -> _ => assert (H1 : A) end.
  { intros t Ht a b [Hab HL]. cbn [fst snd]. destruct (HQ t Ht) as [E1 E2].
    pose proof (mse_error val u eta most F sum D sums_ok D_mono argsort rargsort same_order complete (fst (snd t)) (snd (snd t)) E1 ltac:(lia) k) as H.
    destruct (mse_by sum argsort k (fst (snd t)) (snd (snd t))) as [x|ex];
      destruct (mse_pq (N:=RE) rargsort k (map val (fst (snd t))) (map val (snd (snd t)))) as [x'|ex'];
      cbn [agree] in H; try contradiction; cbn [bind agree]; [|exact H].
    assert (HC : cl (S (S (3 + D n + 0))) (INR n * eta + eta + eta) (nf32 (ndiv x (nofnat (n_instances d)))) (ndiv (n:=RE) x' (nofnat (N:=RE) (n_instances d)))).
    { replace (nofnat (N:=RE) (n_instances d)) with (INR (n_instances d)) by (unfold nofnat; cbn [nofZ RE RN]; symmetry; rewrite INR_IZR_INZ; reflexivity).
      assert (P1 : 1 <= INR (n_instances d)) by (change 1 with (INR 1); apply le_INR; lia).
      assert (H' : cl (3 + D n) (INR n * eta) x x').
      { pose proof (D_mono _ _ E2). pose proof (le_INR _ _ E2). pose proof (pos_INR (length (fst (snd t)))).
        apply (close_weaken u U _ _ _ _ _ _ H); [lia|apply Rmult_le_compat_r; lra|apply Rmult_le_pos; lra]. }
      assert (C : cl 0 0 (nofnat (n_instances d)) (INR (n_instances d))) by (apply (val_count val u eta most F); lia).
      assert (P2 : INR n * eta <= INR n * eta * INR (n_instances d)) by nra.
      pose proof (val_div val u eta most F (3 + D n) 0 (INR n * eta) (INR n * eta) x (nofnat (n_instances d)) x' (INR (n_instances d))
        L0 L0 ltac:(lra) P2 H' C) as Q.
      pose proof (stored (S (3 + D n + 0)) (eta + INR n * eta) _ _ ltac:(lra) Q) as T.
      apply (close_weaken u U _ _ _ _ _ _ T); [lia|lra|lra]. }
    assert (HC' : cl (5 + D n) (INR n * eta + eta + eta) (nf32 (ndiv x (nofnat (n_instances d)))) (ndiv (n:=RE) x' (nofnat (N:=RE) (n_instances d)))).
    { apply (close_weaken u U _ _ _ _ _ _ HC); [lia|lra|lra]. }
    pose proof (set_related (cl (5 + D n) (INR n * eta + eta + eta)) a b (fst t) _ _ Hab HC') as Q.
    change (nf32 (n:=RE) (ndiv (n:=RE) x' (nofnat (N:=RE) (n_instances d)))) with (ndiv (n:=RE) x' (nofnat (N:=RE) (n_instances d))).
    match goal with |- agree P ?X ?Y => destruct X as [a1|] eqn:E3; destruct Y as [b1|] end; cbn [agree] in *; try exact Q.
    split; [exact Q|]. rewrite <- HL. revert E3. unfold py_set; cbv zeta.
    repeat (match goal with |- context [if ?c then _ else _] => destruct c end; cbn [bind]); intros E3; inversion E3; apply upd_length. }
  specialize (FR H1 (repeat nzero (n_queries d)) (repeat (nzero (n:=RE)) (n_queries d))).
  match type of FR with ?A -> _ => assert (H2 : A) by (split; [apply zeros_related; lra|apply repeat_length]) end.
  specialize (FR H2).
  refine (agree_bind P _ _ _ _ _ FR _). intros a b [A B]. cbn [agree fst snd].
  split; [|exact A]. rewrite <- B.
  pose proof (sum_error val u eta most F sum D sums_ok D_mono (5 + D n) (INR n * eta + eta + eta) a b (length a) ltac:(lra) A (le_n _)) as S.
  exact S.
Qed.
End Means.
