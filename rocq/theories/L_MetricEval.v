(** Metric.eval and MSE.eval over a data set. *)
From Coq Require Import List ZArith Reals Lia Lra Bool Permutation Sorted.
From Verif Require Import Base Lists Num M_Dataset S_Dataset L_Dataset L_Dataset2 L_Dataset3 L_Query
  M_Metrics S_Metrics L_Metrics L_MetricsR L_MetricsR2.
Import ListNotations.

Lemma mapM_ext {A B} (f g : A -> res B) l : (forall x, In x l -> f x = g x) -> mapM f l = mapM g l.
Proof. induction l; cbn; intros H; auto. rewrite H by auto. destruct (g a); cbn; auto. rewrite IHl; auto. Qed.

Lemma mapM_map {A B C} (f : B -> res C) (h : A -> B) l : mapM f (map h l) = mapM (fun x => f (h x)) l.
Proof. induction l; cbn; auto. destruct (f (h a)); cbn; auto. rewrite IHl. auto. Qed.

Lemma mapM_post {A B C} (f : A -> res B) (h : B -> C) l :
  mapM (fun x => do v <- f x; Ok (h v)) l = do v <- mapM f l; Ok (map h v).
Proof.
  induction l; cbn; auto. destruct (f a); cbn; auto. rewrite IHl. destruct (mapM f l); cbn; auto.
Qed.

Lemma mapM_Ok {A B} (f : A -> B) l : mapM (fun x => Ok (f x)) l = Ok (map f l).
Proof. induction l; cbn; auto. rewrite IHl. auto. Qed.

Lemma mapM_length {A B} (f : A -> res B) l v : mapM f l = Ok v -> length v = length l.
Proof.
  revert v. induction l; cbn; intros v H; [inversion H; auto|]. destruct (f a); cbn in H; [|discriminate].
  destruct (mapM f l); cbn in H; [|discriminate]. inversion H; cbn. rewrite IHl; auto.
Qed.

Section E.
Context {N : num}.

Lemma queries_select nf X y ids (d : dataset N) s : built nf X y ids d -> length s = length ids ->
  metric_queries d s = map (fun q => (q, (select q ids y, select q ids s))) (ds_qids d).
Proof.
  intros B HL. pose proof B as (Hy & _ & _ & H). unfold metric_queries.
  assert (Ey : ds_y d = y) by (destruct (ds_init_inv _ _ _ _ H) as [_ E]; subst d; reflexivity).
  pose proof (iter_select _ _ _ _ _ y B Hy) as E1. pose proof (iter_select _ _ _ _ _ s B HL) as E2.
  pose proof (iter_qids _ _ _ _ _ H) as E3. rewrite Ey.
  revert E1 E2 E3. generalize (query_iterator d) (ds_qids d). induction l as [|t l IH]; intros [|q qs]; cbn; try discriminate; auto.
  intros E1 E2 E3. inversion E1; inversion E2; inversion E3; subst. f_equal. apply IH; auto.
Qed.

Lemma metric_eval_gen (f : list N -> list N -> res N) d s :
  length (metric_queries d s) = n_queries d ->
  metric_eval f d s = do v <- mapM (fun t => f (fst (snd t)) (snd (snd t))) (metric_queries d s);
                      Ok (nanmean (map nf32 v), map nf32 v).
Proof.
  intros HL. unfold metric_eval. rewrite <- HL.
  pose proof (fill_slots (fun t : Z * (list N * list N) => do x <- f (fst (snd t)) (snd (snd t)); Ok (nf32 x)) (metric_queries d s) [] nzero) as F.
  cbn [length app] in F. rewrite mapM_post in F.
  rewrite (foldM_ext _ (fun acc t => do x <- (do x <- f (fst (snd (snd t))) (snd (snd (snd t))); Ok (nf32 x)); py_set acc (Z.of_nat (fst t)) x)).
  2:{ intros b x _. destruct (f _ _); reflexivity. }
  rewrite F. destruct (mapM _ (metric_queries d s)); reflexivity.
Qed.

Lemma C16_lemma (f : list N -> list N -> res N) nf X y ids (d : dataset N) s :
  built nf X y ids d -> length s = length ids ->
  metric_eval f d s
  = do v <- mapM (fun q => f (select q ids y) (select q ids s)) (ds_qids d);
    Ok (nanmean (map nf32 v), map nf32 v).
Proof.
  intros B HL. rewrite metric_eval_gen.
  - rewrite (queries_select _ _ _ _ _ _ B HL), mapM_map. reflexivity.
  - rewrite (queries_select _ _ _ _ _ _ B HL), map_length. reflexivity.
Qed.

Lemma C16_iff (f : list N -> list N -> res N) nf X y ids (d : dataset N) s avg v :
  built nf X y ids d -> length s = length ids ->
  (metric_eval f d s = Ok (avg, v) <->
   length v = n_queries d /\
   (forall i q, nth_error (ds_qids d) i = Some q ->
      exists x, f (select q ids y) (select q ids s) = Ok x /\ nth_error v i = Some (nf32 x)) /\
   avg = (let w := filter (fun x => negb (nisnan x)) v in ndiv (nsum w) (nofnat (length w)))).
Proof.
  intros B HL. rewrite (C16_lemma _ _ _ _ _ _ _ B HL). unfold n_queries. generalize (ds_qids d). intros qs. split.
  - intros H. destruct (mapM _ qs) as [v'|] eqn:E; [|discriminate]. cbn [bind] in H. inversion H; subst. clear H.
    rewrite map_length. split; [eapply mapM_length; eauto|]. split; [|reflexivity].
    revert v' E. induction qs as [|q0 qs IH]; cbn; intros v' E i q Hi; [destruct i; discriminate|].
    destruct (f _ _) as [x|] eqn:Ef; cbn in E; [|discriminate].
    destruct (mapM _ qs) as [vs|] eqn:Em; cbn in E; [|discriminate]. inversion E; subst. clear E.
    destruct i; cbn in Hi |- *.
    + inversion Hi; subst. eauto.
    + eapply IH; eauto.
  - intros (HLv & Hv & ->).
    assert (E : exists v', mapM (fun q => f (select q ids y) (select q ids s)) qs = Ok v' /\ map nf32 v' = v).
    { revert v HLv Hv. induction qs as [|q0 qs IH]; intros [|a v] HLv Hv; cbn in HLv; try discriminate.
      - exists []. auto.
      - destruct (Hv 0%nat q0 eq_refl) as (x & Ex & Ea). cbn in Ea. inversion Ea; subst.
        destruct (IH v) as (v' & E1 & E2); [lia|intros i q Hi; apply (Hv (S i) q Hi)|].
        exists (x :: v'). cbn. rewrite Ex. cbn. rewrite E1. cbn. rewrite E2. auto. }
    destruct E as (v' & E & <-). rewrite E. reflexivity.
Qed.
End E.

(** ** C29 *)
Section Slots.
Context {B : Type}.
Implicit Types (kvs : list (Z * B)) (acc : list B).

Lemma py_set_nat acc (k : nat) v : (k < length acc)%nat -> py_set acc (Z.of_nat k) v = Ok (upd acc k v).
Proof.
  intros H. unfold py_set. destruct (Z.ltb_spec (Z.of_nat k) 0); [lia|].
  destruct ((Z.of_nat k <? 0) || (Z.of_nat (length acc) <=? Z.of_nat k))%Z eqn:E.
  - apply orb_prop in E. destruct E as [E|E]; [apply Z.ltb_lt in E|apply Z.leb_le in E]; lia.
  - rewrite Nat2Z.id. auto.
Qed.

Lemma upd_length acc k v : length (upd acc k v) = length acc.
Proof. revert k; induction acc; destruct k; cbn; auto. Qed.
Lemma upd_nth acc k v j : nth_error (upd acc k v) j = if (j =? k)%nat then option_map (fun _ => v) (nth_error acc j) else nth_error acc j.
Proof.
  revert k j. induction acc as [|a acc IH]; intros k j.
  - cbn [upd]. destruct (j =? k)%nat; destruct j; auto.
  - destruct k, j; cbn; auto.
Qed.

Lemma set_slots kvs : forall acc n, length acc = n -> NoDup (map fst kvs) ->
  Forall (fun t => (0 <= fst t < Z.of_nat n)%Z) kvs ->
  exists v, foldM (fun a t => py_set a (fst t) (snd t)) kvs acc = Ok v /\ length v = n /\
    (forall k x, In (Z.of_nat k, x) kvs -> nth_error v k = Some x) /\
    (forall k, ~ In (Z.of_nat k) (map fst kvs) -> nth_error v k = nth_error acc k).
Proof.
  induction kvs as [|[q x] kvs IH]; intros acc n HL ND Hb; cbn [foldM].
  - exists acc. repeat split; auto. intros k y [].
  - inversion Hb as [|? ? Hq Hb']; subst. cbn in Hq, ND. inversion ND as [|? ? Hni ND']; subst.
    set (k0 := Z.to_nat q). assert (Eq : q = Z.of_nat k0) by (unfold k0; lia). cbn [fst snd].
    rewrite Eq, py_set_nat by lia. cbn [bind].
    destruct (IH (upd acc k0 x) (length acc)) as (v & E & Lv & H1 & H2); auto; [apply upd_length|].
    exists v. split; [exact E|]. split; auto. split.
    + intros k y [Ek|Hin].
      * inversion Ek. assert (k = k0) by lia. subst k y. rewrite H2; [|rewrite <- Eq; auto].
        rewrite upd_nth, Nat.eqb_refl. destruct (nth_error acc k0) eqn:En; auto.
        apply nth_error_None in En. lia.
      * apply H1; auto.
    + intros k Hk. cbn in Hk. rewrite H2 by tauto. rewrite upd_nth.
      destruct (Nat.eqb_spec k k0); auto. exfalso. apply Hk. left. lia.
Qed.

Lemma set_slots_perm kvs (z : B) n : Permutation (map fst kvs) (map Z.of_nat (seq 0 n)) ->
  exists v, foldM (fun a t => py_set a (fst t) (snd t)) kvs (repeat z n) = Ok v /\ length v = n /\
    Permutation v (map snd kvs) /\
    (forall k x, In (Z.of_nat k, x) kvs -> nth_error v k = Some x).
Proof.
  intros HP.
  assert (ND : NoDup (map fst kvs)).
  { eapply Permutation_NoDup; [symmetry; exact HP|]. apply FinFun.Injective_map_NoDup; [intros a b; lia|apply seq_NoDup]. }
  destruct (set_slots kvs (repeat z n) n) as (v & E & Lv & H1 & _); auto.
  - apply repeat_length.
  - apply Forall_forall. intros [q x] Hin. assert (In q (map fst kvs)) as Hq by (apply (in_map fst) in Hin; auto).
    apply (Permutation_in _ HP) in Hq. apply in_map_iff in Hq. destruct Hq as (k & <- & Hk). apply in_seq in Hk. cbn. lia.
  - exists v. split; auto. split; auto. split; auto.
    set (F := fun k => nth k v z).
    assert (Ev : v = map F (seq 0 n)).
    { subst F. rewrite <- Lv. clear. apply nth_error_ext'. intros i. rewrite nth_error_map'.
      destruct (Nat.lt_ge_cases i (length v)).
      - rewrite nth_error_seq. destruct (Nat.ltb_spec i (length v)); [|lia]. cbn. apply nth_error_nth'. auto.
      - rewrite (proj2 (nth_error_None v i)) by auto.
        rewrite (proj2 (nth_error_None (seq 0 (length v)) i)) by (rewrite seq_length; auto). auto. }
    assert (Em : map snd kvs = map (fun t => F (Z.to_nat (fst t))) kvs).
    { apply map_ext_in. intros [q x] Hin. cbn. assert (In q (map fst kvs)) as Hq by (apply (in_map fst) in Hin; auto).
      apply (Permutation_in _ HP) in Hq. apply in_map_iff in Hq. destruct Hq as (k & <- & Hk).
      rewrite Nat2Z.id. unfold F. symmetry. apply nth_error_nth. apply H1. auto. }
    rewrite Em, Ev. rewrite <- (map_map fst (fun q => F (Z.to_nat q))).
    rewrite HP, map_map. apply Permutation_refl'. apply map_ext. intros. rewrite Nat2Z.id. auto.
Qed.
End Slots.

Lemma select_combine {A B} q ids (a : list A) (b : list B) : length a = length ids -> length b = length ids ->
  combine (select q ids a) (select q ids b) = select q ids (combine a b).
Proof.
  revert a b. unfold select. induction ids as [|i ids IH]; intros [|x a] [|y b]; cbn; try discriminate; auto.
  intros Ha Hb. destruct (i =? q)%Z; cbn; rewrite <- IH by lia; auto.
Qed.

Lemma select_map {A B} (f : A -> B) q ids (a : list A) : select q ids (map f a) = map f (select q ids a).
Proof.
  unfold select. revert a. induction ids as [|i ids IH]; intros [|x a]; cbn; auto. destruct (i =? q)%Z; cbn; rewrite IH; auto.
Qed.

Lemma select_length {A B} q ids (a : list A) (b : list B) : length a = length ids -> length b = length ids ->
  length (select q ids a) = length (select q ids b).
Proof.
  revert a b. unfold select. induction ids as [|i ids IH]; intros [|x a] [|y b]; cbn; try discriminate; auto.
  intros Ha Hb. destruct (i =? q)%Z; cbn; rewrite (IH a b) by lia; auto.
Qed.

Definition Rl (l : list R) : R := fold_right Rplus 0%R l.

Lemma Rl_perm l l' : Permutation l l' -> Rl l = Rl l'.
Proof. induction 1; unfold Rl in *; cbn; lra. Qed.

Lemma Rl_select qs ids (c : list R) : NoDup qs -> (forall i, In i ids -> In i qs) -> length c = length ids ->
  Rl (map (fun q => Rl (select q ids c)) qs) = Rl c.
Proof.
  intros ND. revert c. unfold select. induction ids as [|i ids IH]; intros [|x c] Hin HL; cbn in HL; try discriminate.
  - cbn. clear. induction qs; unfold Rl in *; cbn; auto. rewrite IHqs. lra.
  - cbn [combine filter fst].
    assert (E : Rl (map (fun q => Rl (map snd (if (i =? q)%Z then (i, x) :: filter (fun p => (fst p =? q)%Z) (combine ids c)
                     else filter (fun p => (fst p =? q)%Z) (combine ids c)))) qs)
              = (Rl (map (fun q => Rl (map snd (filter (fun p => (fst p =? q)%Z) (combine ids c)))) qs)
                 + Rl (map (fun q => if (i =? q)%Z then x else 0%R) qs))%R).
    { clear. induction qs as [|q qs IH]; [unfold Rl; cbn; lra|]. cbn [map]. unfold Rl in *. cbn [fold_right]. rewrite IH.
      destruct (i =? q)%Z; cbn [map snd fold_right]; lra. }
    rewrite E. rewrite IH by (auto; intros; apply Hin; right; auto).
    assert (G : Rl (map (fun q => if (i =? q)%Z then x else 0%R) qs) = x).
    { assert (Hi : In i qs) by (apply Hin; left; auto). clear - ND Hi.
      induction qs as [|q qs IH]; [destruct Hi|]. inversion ND as [|? ? Hn ND']; subst. cbn [map]. unfold Rl in *. cbn [fold_right].
      destruct (Z.eqb_spec i q) as [->|Hne].
      - assert (fold_right Rplus 0 (map (fun q0 => if (q =? q0)%Z then x else 0) qs) = 0)%R as ->; [|lra].
        clear - Hn. induction qs as [|a qs IH]; cbn; auto. rewrite IH by (intros ?; apply Hn; right; auto).
        destruct (Z.eqb_spec q a) as [->|]; [exfalso; apply Hn; left; auto|lra].
      - rewrite IH; auto; [lra|]. destruct Hi; auto. congruence. }
    rewrite G. unfold Rl; cbn. lra.
Qed.

Lemma mse_eval_fold (argsort : list RE -> list nat) nf X (y : list RE) ids (d : dataset RE) (s : list RE) :
  built nf X y ids d -> length s = length ids ->
  mse_eval argsort None d s
  = do v <- foldM (fun a t => py_set a (fst t) (snd t))
        (map (fun q => (q, (sse (select q ids y) (select q ids s) / INR (length ids))%R)) (ds_qids d))
        (repeat (0%R : RE) (n_queries d));
    Ok (nsum (N:=RE) v, v).
Proof.
  intros B HL. pose proof B as (Hy & _ & _ & H). unfold mse_eval.
  rewrite (queries_select _ _ _ _ _ _ B HL).
  assert (En : n_instances d = length ids).
  { destruct (ds_init_inv _ _ _ _ H) as [_ E]; subst d. unfold n_instances. cbn. auto. }
  rewrite En. rewrite nofnat_R.
  assert (F : forall qs acc,
   foldM (fun acc t => do x <- mse_pq argsort None (fst (snd t)) (snd (snd t)); py_set acc (fst t) (nf32 (ndiv x (INR (length ids) : RE))))
     (map (fun q => (q, (select q ids y, select q ids s))) qs) acc
   = foldM (fun a t => py_set a (fst t) (snd t)) (map (fun q => (q, (sse (select q ids y) (select q ids s) / INR (length ids))%R : RE)) qs) acc).
  { induction qs as [|q qs IH]; intros acc; [reflexivity|]. cbn [map foldM fst snd].
    rewrite mse_value by (apply select_length; auto). cbn [bind].
    change (nf32 (ndiv (sse (select q ids y) (select q ids s) : RE) (INR (length ids) : RE)))
      with (sse (select q ids y) (select q ids s) / INR (length ids))%R.
    destruct (py_set acc q _); cbn [bind]; [apply IH|reflexivity]. }
  rewrite F. reflexivity.
Qed.

Lemma C29_lemma (argsort : list RE -> list nat) nf X (y : list RE) ids (d : dataset RE) (s : list RE) :
  built nf X y ids d -> length s = length ids ->
  Permutation (ds_qids d) (map Z.of_nat (seq 0 (n_queries d))) ->
  exists v, mse_eval argsort None d s = Ok ((sse y s / INR (length ids))%R : RE, v) /\
    length v = n_queries d /\
    forall k, In (Z.of_nat k) ids ->
      nth_error v k = Some (sse (select (Z.of_nat k) ids y) (select (Z.of_nat k) ids s) / INR (length ids))%R.
Proof.
  intros B HL HP. pose proof B as (Hy & _ & _ & H). rewrite (mse_eval_fold _ _ _ _ _ _ _ B HL).
  set (share := fun q => (sse (select q ids y) (select q ids s) / INR (length ids))%R).
  set (kvs := map (fun q => (q, share q)) (ds_qids d)).
  destruct (@set_slots_perm R kvs 0%R (n_queries d)) as (v & E & Lv & Pv & Nv).
  { unfold kvs. rewrite map_map. cbn. rewrite map_id. exact HP. }
  exists v. split; [|split; auto].
  - change (foldM (fun a t => py_set a (fst t) (snd t)) kvs (repeat 0%R (n_queries d))) with
      (foldM (fun a t => py_set a (fst t) (snd t)) kvs (repeat (0%R) (n_queries d))) in E.
    change (repeat (0%R : RE) (n_queries d)) with (repeat 0%R (n_queries d)). unfold kvs, share in E.
    change (car RE) with R in *. rewrite E. cbn [bind]. f_equal. f_equal.
    pose proof (nsum_R v) as Q. change (nsum (N:=RE) v = (sse y s / INR (length ids))%R). rewrite Q.
    change (fold_right Rplus 0%R v) with (Rl v). rewrite (Rl_perm _ _ Pv). unfold kvs. rewrite map_map. cbn [snd].
    unfold share, sse at 1.
    assert (G : forall qs, Rl (map (fun q => (fold_right Rplus 0 (map (fun p => (fst p - snd p) * (fst p - snd p)) (combine (select q ids y) (select q ids s))) / INR (length ids))%R) qs)
       = (Rl (map (fun q => Rl (select q ids (map (fun p => (fst p - snd p) * (fst p - snd p)) (combine y s)))) qs) / INR (length ids))%R).
    { clear - Hy HL. induction qs as [|q qs IH]; [unfold Rl; cbn; lra|]. cbn [map]. unfold Rl in *. cbn [fold_right]. rewrite IH.
      rewrite select_map, <- select_combine by auto. lra. }
    rewrite G. unfold sse. f_equal. unfold Rl at 1. apply Rl_select.
    + apply (ds_qids_NoDup _ _ _ _ _ H).
    + intros i Hi. apply (ds_qids_In _ _ _ _ _ _ H). auto.
    + rewrite map_length, combine_length, Hy, HL. lia.
  - intros k Hk. apply Nv. unfold kvs. apply in_map_iff. exists (Z.of_nat k). split; auto.
    apply (ds_qids_In _ _ _ _ _ _ H). auto.
Qed.

Lemma C29_out_lemma (argsort : list RE -> list nat) nf X (y : list RE) ids (d : dataset RE) (s : list RE) q :
  built nf X y ids d -> length s = length ids -> In q ids ->
  (q < - Z.of_nat (n_queries d) \/ Z.of_nat (n_queries d) <= q)%Z ->
  mse_eval argsort None d s = Err IndexError.
Proof.
  intros B HL Hq Hr. pose proof B as (Hy & _ & _ & H). rewrite (mse_eval_fold _ _ _ _ _ _ _ B HL).
  assert (Hin : In q (ds_qids d)) by (apply (ds_qids_In _ _ _ _ _ _ H); auto).
  set (share := fun q => (sse (select q ids y) (select q ids s) / INR (length ids))%R).
  assert (G : forall qs (acc : list R), In q qs -> length acc = n_queries d ->
    foldM (fun a t => py_set a (fst t) (snd t)) (map (fun q => (q, share q)) qs) acc = Err IndexError).
  { clear - Hr. induction qs as [|a qs IH]; intros acc [] HL; subst; cbn [map foldM fst snd].
    - unfold py_set. rewrite HL. destruct (Z.ltb_spec q 0).
      + destruct (Z.ltb_spec (q + Z.of_nat (n_queries d)) 0); [|lia]. reflexivity.
      + destruct (Z.ltb_spec q 0); [lia|]. destruct (Z.leb_spec (Z.of_nat (n_queries d)) q); [|lia]. reflexivity.
    - destruct (py_set acc a (share a)) as [acc'|e] eqn:E; cbn [bind].
      + apply IH; auto. unfold py_set in E. destruct (_ || _)%bool; inversion E. rewrite upd_length. auto.
      + unfold py_set in E. destruct (_ || _)%bool; inversion E. auto. }
  pose proof (G (ds_qids d) (repeat 0%R (n_queries d)) Hin (repeat_length _ _)) as E.
  unfold share in E. change (car RE) with R in *. rewrite E. reflexivity.
Qed.
