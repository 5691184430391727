(** Proofs: missing values, infinities and signed zeros in scoring. *)
From Coq Require Import Ascii String List ZArith Lia Bool SpecFloat.
From Verif Require Import Base Lists Num M_Dataset S_Dataset M_NDCG M_Ensemble S_Ensemble M_Float M_Text M_TextLoaders M_Loaders S_Loaders.
From Verif Require Import S_Svmlight L_Text L_Loaders L_QuickRank L_Dump2 M_IEEE S_IEEE S_Missing L_Dataset3 L_Ensemble L_Ensemble2 L_Ensemble3 L_Alike L_Float L_Float2 L_IEEE L_IEEE2 L_IEEE3 L_IEEE4 L_IEEE5.
Import ListNotations.
Local Open Scope Z_scope.

(** ** Comparison *)
Lemma nan_leb x : SFleb S754_nan x = false. Proof. reflexivity. Qed.
Lemma leb_nan x : SFleb x S754_nan = false. Proof. destruct x; reflexivity. Qed.
Lemma eqb_same x y : SFeqb x y = true -> same_number x y.
Proof.
  unfold SFeqb. destruct x as [s|s| |s m e], y as [s'|s'| |s' m' e']; cbn [SFcompare]; intros H;
    try discriminate H; try (destruct s'; discriminate H); try (destruct s; discriminate H).
  - right. exact I.
  - left. destruct s, s'; try discriminate H; reflexivity.
  - left. assert (E : s = s'). { destruct s, s'; try discriminate H; reflexivity. } subst s'.
    change (Pos.compare_cont Eq m m') with (m ?= m')%positive in H.
    assert (C : (e ?= e') = Eq /\ (m ?= m')%positive = Eq).
    { destruct (e ?= e'), s; try discriminate H; destruct (m ?= m')%positive; try discriminate H; auto. }
    destruct C as (C1 & C2). apply Z.compare_eq_iff in C1. apply Pos.compare_eq_iff in C2. subst. reflexivity.
Qed.
Lemma same_compare x y z : same_number x y -> SFcompare x z = SFcompare y z.
Proof. intros [->|H]; [reflexivity|]. destruct x, y; try contradiction. reflexivity. Qed.
Lemma eqb_leb x y z : SFeqb x y = true -> SFleb x z = SFleb y z.
Proof. intros H. unfold SFleb. rewrite (same_compare x y z (eqb_same x y H)). reflexivity. Qed.
Lemma eqb_nan x : SFeqb S754_nan x = false /\ SFeqb x S754_nan = false.
Proof. split; [|destruct x]; reflexivity. Qed.

(** ** Rows that the comparisons cannot tell apart *)
Section Rows.
Context {N : num}.
Definition like (vs : list N) (x y : N) : Prop := forall thr, In thr vs -> nleb x thr = nleb y thr.
Lemma mem_get_like vs : forall (row row' : list N) i, Forall2 (like vs) row row' ->
  match mem_get row i, mem_get row' i with Ok x, Ok y => like vs x y | Err a, Err b => a = b | _, _ => False end.
Proof.
  intros row row' i F. unfold mem_get, zget. destruct (i <? 0); [reflexivity|].
  generalize (Z.to_nat i) as n. induction F as [|x y row row' H F IH]; intros [|n]; cbn [nth_error of_option]; [reflexivity|reflexivity|exact H|apply IH].
Qed.
Lemma mem_get_In (l : list N) i v : mem_get l i = Ok v -> In v l.
Proof. unfold mem_get, zget. destruct (i <? 0); [discriminate|]. destruct (nth_error l (Z.to_nat i)) eqn:E; [|discriminate]. intros H. injection H as <-. eapply nth_error_In; eauto. Qed.
Lemma walk_like (e : ensemble N) row row' : Forall2 (like (e_value e)) row row' -> forall n cur, walk n e row cur = walk n e row' cur.
Proof.
  intros F. induction n as [|n IH]; intros cur; cbn [walk]; [reflexivity|].
  destruct (mem_get (e_left e) cur) as [l|]; [|reflexivity]. cbn [bind]. destruct (l =? -1); [reflexivity|].
  destruct (mem_get (e_right e) cur) as [r|]; [|reflexivity]. cbn [bind]. destruct (r =? -1); [reflexivity|].
  destruct (mem_get (e_feature e) cur) as [f|]; [|reflexivity]. cbn [bind].
  destruct (mem_get (e_value e) cur) as [thr|] eqn:T; [|reflexivity]. cbn [bind].
  pose proof (mem_get_like _ row row' f F) as M. destruct (mem_get row f) as [x|], (mem_get row' f) as [y|]; try contradiction; [|subst; reflexivity].
  cbn [bind]. rewrite (M thr (mem_get_In _ _ _ T)). apply IH.
Qed.
Lemma exit_like (e : ensemble N) row row' t : Forall2 (like (e_value e)) row row' -> exit_node e row t = exit_node e row' t.
Proof. intros F. unfold exit_node. destruct (mem_get (e_root e) t); [|reflexivity]. cbn [bind]. apply walk_like, F. Qed.
Lemma foldM_ext {A B} (f g : A -> B -> res A) l : (forall a b, f a b = g a b) -> forall a, foldM f l a = foldM g l a.
Proof. intros H. induction l as [|b l IH]; intros a; cbn [foldM]; [reflexivity|]. rewrite H. destruct (g a b); [|reflexivity]. cbn [bind]. apply IH. Qed.
Lemma mapM_ext2 {A B} (f g : A -> res B) l : (forall a, f a = g a) -> mapM f l = mapM g l.
Proof. intros H. induction l as [|b l IH]; cbn [mapM]; [reflexivity|]. rewrite H, IH. reflexivity. Qed.
Lemma mapM_Forall2 {A B} (R : A -> A -> Prop) (f : A -> res B) : (forall a b, R a b -> f a = f b) -> forall l l', Forall2 R l l' -> mapM f l = mapM f l'.
Proof. intros H l l' F. induction F as [|a b l l' Hab F IH]; cbn [mapM]; [reflexivity|]. rewrite (H a b Hab), IH. reflexivity. Qed.
Theorem scoring_like (e : ensemble N) X X' : Forall2 (Forall2 (like (e_value e))) X X' ->
  basic_scoring e X = basic_scoring e X' /\ detailed_scoring e X = detailed_scoring e X'.
Proof.
  intros F. split.
  - unfold basic_scoring. apply (mapM_Forall2 (Forall2 (like (e_value e)))); [|exact F]. intros a b H. unfold score_instance.
    apply foldM_ext. intros y t. rewrite (exit_like e a b t H). reflexivity.
  - unfold detailed_scoring. destruct (e_ntrees e <? 0); [reflexivity|].
    rewrite (mapM_Forall2 (Forall2 (like (e_value e))) (detail_instance e)) with (l' := X'); [reflexivity| |exact F].
    intros a b H. unfold detail_instance. apply mapM_ext2. intros t. rewrite (exit_like e a b t H). reflexivity.
Qed.
End Rows.

(** ** A missing value goes right *)
Theorem missing_right {A} (row : list IEEE32) (t : tree A IEEE32) :
  exit_leaf row t = exit_default nleb (fun _ => false) row t.
Proof.
  induction t as [a v|a f thr l IHl r IHr]; cbn [exit_leaf exit_default]; [reflexivity|]. rewrite IHl, IHr.
  destruct (nth (Z.to_nat f) row nzero); reflexivity.
Qed.
Lemma default_irrelevant {A} lt (d d' : A -> bool) (row : list IEEE32) (t : tree A IEEE32) : ~ In (S754_nan : IEEE32) row -> exit_default lt d row t = exit_default lt d' row t.
Proof.
  intros H. induction t as [a v|a f thr l IHl r IHr]; cbn [exit_default]; [reflexivity|]. rewrite IHl, IHr.
  replace (is_nan (nth (Z.to_nat f) row (nzero (n:=IEEE32)))) with false; [reflexivity|].
  destruct (nth_in_or_default (Z.to_nat f) row (nzero (n:=IEEE32))) as [I|E]; [|rewrite E; reflexivity].
  destruct (nth (Z.to_nat f) row (nzero (n:=IEEE32))) eqn:Q; try reflexivity. contradiction.
Qed.
Lemma nan_to_inf_like vs x : ~ In (S754_infinity false) vs -> like (N:=IEEE32) vs x (nan_to_inf x).
Proof.
  intros H thr I. destruct x; try reflexivity. cbn [nan_to_inf is_nan nleb IEEE32 IEEE]. rewrite nan_leb. unfold SFleb.
  destruct thr as [s|[|]| |s m e]; try reflexivity. contradiction.
Qed.
Theorem nan_as_infinity (e : ensemble IEEE32) X : ~ In (S754_infinity false) (e_value e) ->
  basic_scoring e X = basic_scoring e (map (map nan_to_inf) X) /\
  detailed_scoring e X = detailed_scoring e (map (map nan_to_inf) X).
Proof.
  intros H. apply scoring_like. induction X as [|row X IH]; constructor; [|exact IH].
  induction row as [|x row IHr]; constructor; [|exact IHr]. apply nan_to_inf_like, H.
Qed.

(** ** The scores of special values *)
Lemma add_nan x : SFadd 24 128 S754_nan x = S754_nan /\ SFadd 24 128 x S754_nan = S754_nan.
Proof. split; [|destruct x]; reflexivity. Qed.
Theorem nan_part (ws : list IEEE32) ts row : In S754_nan (tree_scores ws ts row) -> ensemble_score ws ts row = S754_nan.
Proof.
  unfold ensemble_score. generalize (tree_scores ws ts row) as l. generalize (nzero (n:=IEEE32)) as y.
  assert (K : forall l : list IEEE32, fold_left (fun y s => nf32 (nadd y s)) l (S754_nan : IEEE32) = S754_nan).
  { induction l as [|x l IH]; [reflexivity|]. cbn [fold_left]. exact IH. }
  intros y l. revert y. induction l as [|x l IH]; intros y H; [destruct H|]. cbn [fold_left]. destruct H as [->|H].
  - cbn [nadd IEEE32 IEEE nf32]. rewrite (proj2 (add_nan y)). apply K.
  - apply IH, H.
Qed.
Lemma bra_not_nan prec emax s m e l : 0 <= m -> binary_round_aux prec emax s m e l <> S754_nan.
Proof.
  intros H. unfold binary_round_aux.
  assert (IT : forall q r, 0 <= shr_m r -> 0 <= shr_m (iter_pos shr_1 q r)).
  { induction q as [q IH|q IH|]; intros r Hr; cbn [iter_pos].
    - apply IH, IH. rewrite shr_1_m by exact Hr. apply Z.div_pos; lia.
    - apply IH, IH, Hr.
    - rewrite shr_1_m by exact Hr. apply Z.div_pos; lia. }
  assert (ST : forall m e l, 0 <= m -> 0 <= shr_m (fst (shr_fexp prec emax m e l))).
  { intros m0 e0 l0 H0. unfold shr_fexp, shr. assert (0 <= shr_m (shr_record_of_loc m0 l0)) by (destruct l0 as [|[| |]]; exact H0).
    destruct (_ - _); cbn [fst]; auto. }
  pose proof (ST m e l H) as A. destruct (shr_fexp prec emax m e l) as [r e']. cbn [fst] in A.
  assert (B : 0 <= round_nearest_even (shr_m r) (loc_of_shr_record r)).
  { destruct (loc_of_shr_record r) as [|[| |]]; cbn [round_nearest_even]; try destruct (Z.even _); lia. }
  pose proof (ST _ e' loc_Exact B) as C. destruct (shr_fexp prec emax (round_nearest_even _ _) e' loc_Exact) as [r2 e2]. cbn [fst] in C.
  destruct (shr_m r2); [discriminate| |lia]. destruct (e2 <=? _); discriminate.
Qed.
Lemma br_not_nan prec emax s m e : binary_round prec emax s m e <> S754_nan.
Proof. unfold binary_round. destruct (shl_align m e _) as [mz ez]. apply bra_not_nan. lia. Qed.
Lemma norm_not_nan prec emax m e z : binary_normalize prec emax m e z <> S754_nan.
Proof. destruct m; cbn [binary_normalize]; [discriminate| |]; apply br_not_nan. Qed.
Lemma f32_not_nan x : x <> S754_nan -> to_float32 x <> S754_nan.
Proof. destruct x; cbn [to_float32]; try (intros H; exact H); try discriminate. intros _. apply br_not_nan. Qed.

(** Parts that are finite give a finite or infinite score. *)
Theorem finite_parts (ws : list IEEE32) ts row : Forall (fun p => p <> S754_nan /\ ~ infinite p) (tree_scores ws ts row) ->
  ensemble_score ws ts row <> S754_nan.
Proof.
  unfold ensemble_score. generalize (tree_scores ws ts row) as l. intros l F.
  assert (K : forall y : IEEE32, y <> S754_nan -> fold_left (fun y s => nf32 (nadd y s)) l y <> S754_nan); [|apply K; discriminate].
  induction F as [|x l (N & I) F IH]; intros y Hy; cbn [fold_left]; [exact Hy|]. apply IH. cbn [nf32 nadd IEEE32 IEEE]. apply f32_not_nan.
  destruct x as [s|s| |s m e]; try (exfalso; tauto).
  - destruct y as [s'|s'| |s' m' e']; cbn [SFadd]; try discriminate; [destruct (Bool.eqb s' s); discriminate|contradiction].
  - exfalso. apply I. exact Logic.I.
  - destruct y as [s'|s'| |s' m' e']; cbn [SFadd]; try discriminate; [contradiction|apply norm_not_nan].
Qed.

(** ** Non-negative parts *)
Lemma round_aux_sign prec emax s m e l : 0 <= m ->
  match binary_round_aux prec emax s m e l with S754_nan => False | S754_zero t | S754_infinity t => t = s | S754_finite t _ _ => t = s end.
Proof.
  intros H. pose proof (bra_not_nan prec emax s m e l H) as Q. unfold binary_round_aux in *.
  destruct (shr_fexp prec emax m e l) as [r e']. destruct (shr_fexp _ _ _ e' loc_Exact) as [r2 e2].
  destruct (shr_m r2); [reflexivity| |contradiction]. destruct (e2 <=? _); reflexivity.
Qed.
Lemma round_nonneg m e prec emax : nonnegative (binary_round prec emax false m e).
Proof.
  unfold binary_round. destruct (shl_align m e _) as [mz ez]. pose proof (round_aux_sign prec emax false (Zpos mz) ez loc_Exact ltac:(lia)) as R.
  destruct (binary_round_aux _ _ _ _ _ _); cbn [nonnegative]; auto.
Qed.
Lemma f32_nonneg x : nonnegative x -> nonnegative (to_float32 x).
Proof. destruct x as [s|s| |s m e]; cbn [to_float32]; auto. intros ->. apply round_nonneg. Qed.
Lemma add_nonneg x y : nonnegative x -> nonnegative y -> nonnegative (SFadd 24 128 x y).
Proof.
  destruct x as [s|s| |s m e], y as [s'|s'| |s' m' e']; cbn [nonnegative SFadd]; try contradiction; try (intros; subst; cbn [nonnegative Bool.eqb]; auto).
  - destruct (Bool.eqb s s'); exact I.
  - cbn [cond_Zopp]. destruct (Zpos _ + Zpos _) eqn:E; try lia. cbn [binary_normalize]. apply round_nonneg.
Qed.
Theorem nonnegative_parts (ws : list IEEE32) ts row : Forall nonnegative (tree_scores ws ts row) -> nonnegative (ensemble_score ws ts row).
Proof.
  unfold ensemble_score. generalize (tree_scores ws ts row) as l. intros l F.
  assert (K : forall y : IEEE32, nonnegative y -> nonnegative (fold_left (fun y s => nf32 (nadd y s)) l y)); [|apply K; exact I].
  induction F as [|x l H F IH]; intros y Hy; cbn [fold_left]; [exact Hy|]. apply IH. cbn [nf32 nadd IEEE32 IEEE]. apply f32_nonneg, add_nonneg; assumption.
Qed.

(** ** Data sets *)
Lemma mat_eq_weak {V} (veqb : V -> V -> bool) X X' nf : length X = length X' -> Forall (fun r => length r = nf) X -> Forall (fun r => length r = nf) X' ->
  exists b, mat_eq veqb X nf X' nf = Ok b /\ (b = true -> Forall2 (Forall2 (fun x y => veqb x y = true)) X X').
Proof.
  intros L HX HX'. unfold mat_eq. assert (B : forall n, bdim n n = Some n) by (intros n; unfold bdim; rewrite Nat.eqb_refl; reflexivity).
  rewrite L, !B. eexists. split; [reflexivity|]. intros H. rewrite forallb_forall in H. rewrite Forall_forall in HX, HX'.
  assert (G : forall (Y : list (list V)) i j, (i < length Y)%nat -> (j < nf)%nat -> bget_row Y nf i j = match nth_error Y i with Some r => nth_error r j | None => None end).
  { intros Y i j Hi Hj. unfold bget_row, bget. replace (if Nat.eqb (length Y) 1 then nth_error Y 0 else nth_error Y i) with (nth_error Y i).
    2:{ destruct (Nat.eqb_spec (length Y) 1); [|reflexivity]. replace i with 0%nat by lia. reflexivity. }
    destruct (nth_error Y i); auto. destruct (Nat.eqb_spec nf 1); auto. replace j with 0%nat by lia. reflexivity. }
  assert (E : forall i r r', nth_error X i = Some r -> nth_error X' i = Some r' -> Forall2 (fun x y => veqb x y = true) r r').
  { intros i r r' E1 E2. assert (Hi : (i < length X')%nat) by (apply nth_error_Some; congruence).
    specialize (H i ltac:(apply in_seq; lia)). rewrite forallb_forall in H.
    pose proof (HX r ltac:(eapply nth_error_In; eauto)) as L1. pose proof (HX' r' ltac:(eapply nth_error_In; eauto)) as L2.
    assert (K : forall j x y, nth_error r j = Some x -> nth_error r' j = Some y -> veqb x y = true).
    { intros j x y F1 F2. assert (Hj : (j < nf)%nat) by (rewrite <- L1; apply nth_error_Some; congruence).
      specialize (H j ltac:(apply in_seq; lia)). rewrite !G in H by lia. rewrite E1, E2, F1, F2 in H. exact H. }
    assert (L3 : length r = length r') by lia. clear - K L3. revert r' L3 K. induction r as [|x r IH]; intros [|y r'] L3 K; try discriminate; constructor.
    - exact (K 0%nat x y eq_refl eq_refl).
    - apply IH; [injection L3; auto|]. intros j a b A B. exact (K (S j) a b A B). }
  clear - E L. revert X' L E. induction X as [|r X IH]; intros [|r' X'] L E; try discriminate; constructor.
  - exact (E 0%nat r r' eq_refl eq_refl).
  - apply IH; [injection L; auto|]. intros i a b A B. exact (E (S i) a b A B).
Qed.
Lemma ds_eq_weak {V} (veqb : V -> V -> bool) d d' : rect d -> rect d' -> S_Dataset.same_shape d d' ->
  exists b, ds_eq veqb d d' = Ok b /\ (b = true -> Forall2 (Forall2 (fun x y => veqb x y = true)) (ds_X d) (ds_X d')).
Proof.
  intros (R1 & R2) (R3 & R4) (S1 & S2 & S3). unfold ds_eq. rewrite <- S2 in *.
  destruct (mat_eq_weak veqb (ds_X d) (ds_X d') (ds_nf d) S1 R1 R3) as (b & -> & H). cbn [bind].
  assert (B : forall n, bdim n n = Some n) by (intros n; unfold bdim; rewrite Nat.eqb_refl; reflexivity).
  destruct b; [|exists false; split; [reflexivity|discriminate]].
  unfold arr_eq. rewrite R2, R4, S1, S3, !B. cbn [bind]. destruct (forallb _ _); eexists; (split; [reflexivity|]); auto.
Qed.
Theorem nan_never_equal d d' : rect d -> rect d' -> S_Dataset.same_shape d d' -> has_nan (ds_X d) -> ds_eq (neqb (n:=IEEE32)) d d' = Ok false.
Proof.
  intros R R' S (row & I1 & I2). destruct (ds_eq_weak (neqb (n:=IEEE32)) d d' R R' S) as (b & E & H). rewrite E. destruct b; [exfalso|reflexivity].
  specialize (H eq_refl). clear - H I1 I2. induction H as [|r r' X X' Hr HX IH]; [destruct I1|]. destruct I1 as [->|I1]; [|apply IH, I1].
  clear - Hr I2. induction Hr as [|x y r r' Hx Hr IH]; [destruct I2|]. destruct I2 as [->|I2]; [|apply IH, I2].
  cbn [neqb IEEE32 IEEE] in Hx. rewrite (proj1 (eqb_nan y)) in Hx. discriminate.
Qed.

(** ** Caches *)
Section Caches.
Variable rowsum : list IEEE32 -> IEEE32.
Variable digest : list (list IEEE32) -> list IEEE32 -> list Z -> Z.
Lemma equal_same_scores (e : ensemble IEEE32) (k o : obj (N:=IEEE32)) :
  Forall2 (Forall2 (fun x y => neqb (n:=IEEE32) x y = true)) (ds_X (snd k)) (ds_X (snd o)) -> same_scores (N:=IEEE32) rowsum e k o.
Proof.
  intros F det.
  assert (F' : Forall2 (Forall2 (like (N:=IEEE32) (e_value e))) (ds_X (snd k)) (ds_X (snd o))).
  { clear - F. induction F as [|r r' X X' H F IH]; constructor; [|exact IH]. clear - H. induction H as [|x y r r' Hx H IH]; constructor; [|exact IH].
    intros thr _. exact (eqb_leb x y thr Hx). }
  destruct (scoring_like e _ _ F') as (E1 & E2). unfold scorer_score. destruct det; cbn [negb andb orb is_some sc_y sc_leaves new_scorer]; rewrite ?E1, ?E2; reflexivity.
Qed.
Theorem history_ieee (m0 : model IEEE32) ts ws h (o : obj (N:=IEEE32)) det cache :
  laid_out (m_ens m0) ts ws -> ts <> [] -> nonneg_features ts -> m_cache m0 = [] ->
  (forall k, In k (o :: scored h) -> rect (snd k)) -> distinguishable digest (o :: scored h) ->
  snd (score rowsum digest (score_after rowsum digest m0 h) o det cache)
    = snd (score rowsum digest m0 o det false)
  \/ (det = false /\ exists y p l,
        snd (score rowsum digest m0 o true false) = Ok (Detailed (Some y) (Some p) (Some l)) /\
        snd (score rowsum digest (score_after rowsum digest m0 h) o det cache) = Ok (Basic (Some y))).
Proof.
  intros HL Hne Hpos H0 Hr Hd. apply (C34_weak_lemma (N:=IEEE32) rowsum digest); [exact H0| |].
  - intros k k' Hk Hk'. destruct (Hd k k' Hk Hk') as (Hid & Hsh).
    destruct (Nat.eq_dec (fst k) (fst k')) as [E|E]; [left; auto|right]. split; [exact E|]. intros Hh.
    destruct (ds_eq_weak (neqb (n:=IEEE32)) (snd k) (snd k') (Hr k Hk) (Hr k' Hk') (Hsh Hh)) as (b & Eb & Hb).
    exists b. split; [exact Eb|]. intros Q. apply equal_same_scores, Hb, Q.
  - intros k Hk. eapply scorable_ok; eauto.
Qed.
End Caches.

(** ** XGBoost *)
Lemma one_stands : stands (none (n:=IEEE32)) 1065353216.
Proof. exists false, 1065353216. split; [lia|]. split; vm_compute; reflexivity. Qed.
Definition small (k : Z) : Prop := - 2 ^ 24 * 2 ^ 149 < sval k <= 2 ^ 24 * 2 ^ 149.
Lemma small_range k : small k -> Z.abs k <= 1266679808.
Proof.
  assert (E : sval 1266679808 = 2 ^ 24 * 2 ^ 149) by (vm_compute; reflexivity).
  assert (E' : sval (- 1266679808) = - 2 ^ 24 * 2 ^ 149) by (vm_compute; reflexivity).
  unfold small. rewrite <- E', <- E. intros (A & B). apply (proj1 (sval_lt _ _)) in A. apply (proj1 (sval_le _ _)) in B. lia.
Qed.
Lemma sval_opp' k : sval (- k) = - sval k.
Proof. apply L_Rounding.sval_opp. Qed.
Lemma sround_opp' n : sround (- n) = - sround n.
Proof.
  destruct (Z.eq_dec n 0) as [->|N]; [vm_compute; reflexivity|]. unfold sround. destruct (Z.ltb_spec n 0); destruct (Z.ltb_spec (- n) 0); try lia; rewrite ?Z.opp_involutive; reflexivity.
Qed.
Definition in_range_z (k : Z) : Prop := Z.abs k <= 1291845632.
Lemma lower_stands x k : stands x k -> small k -> stands (lower_ieee x) (lower32 k).
Proof.
  intros S R. pose proof (small_range k R) as B.
  assert (LP : lower32 k = k - 1) by (apply lower_pred; exact R). rewrite LP.
  assert (F : finite_value 24 128 x) by (apply stands_finite; eauto).
  assert (BK : bits_of x = k) by (eapply stands_unique; [apply rank_of_stands; exact F|exact S]).
  assert (T : nltb (n:=IEEE32) (nsub (n:=IEEE32) x (none (n:=IEEE32))) x = true).
  { pose proof (ieee_sub x (none (n:=IEEE32)) k 1065353216 S one_stands) as Q.
    assert (V : nsub (n:=F32N) k 1065353216 = sround (sval k - 2 ^ 149)) by (cbn [nsub F32N]; f_equal; f_equal; vm_compute; reflexivity).
    rewrite V in Q. pose proof LP as LP'. unfold lower32, next_after in LP'. set (t := sround (sval k - 2 ^ 149)) in *.
    assert (TK : t <= k) by (apply sround_le; pose proof (Z.pow_pos_nonneg 2 149); lia).
    assert (TL : t < k). { destruct (Z.ltb_spec t k) as [|G]; [assumption|]. destruct (Z.ltb_spec k t); lia. }
    assert (TR : in_range_z t).
    { unfold in_range_z. assert (sval (- 1291845632) <= sval k - 2 ^ 149).
      { assert (E2 : sval (- 1291845632) <= sval (- 1266679808) - 2 ^ 149) by (vm_compute; discriminate).
        assert (sval (- 1266679808) <= sval k) by (apply sval_le; lia). lia. }
      assert (- 1291845632 <= t); [|lia]. unfold t.
      assert (G : sround (- (sval k - 2 ^ 149)) <= 1291845632). { apply sround_le. pose proof (sval_opp' 1291845632) as Q1. change (- (1291845632)) with (-1291845632) in Q1. lia. }
      rewrite sround_opp' in G. lia. }
    unfold result_of in Q. destruct (Z.ltb_spec (Z.abs t) (255 * 2 ^ 23)) as [|G]; [|unfold in_range_z in TR; lia].
    destruct (ieee_comparisons _ _ _ _ Q S) as (_ & E & _). rewrite E. cbn [nltb F32N]. apply Z.ltb_lt, sval_lt, TL. }
  destruct F as (_ & F). destruct x as [s|s| |s m e]; try contradiction; unfold lower_ieee; rewrite T, BK; apply stands_ieee; lia.
Qed.

Lemma moderate_stands x : moderate x -> exists k, stands x k /\ small k.
Proof.
  intros (V & A & B). assert (F : finite_value 24 128 x).
  { split; [exact V|]. destruct x as [s|[|]| |s m e]; try exact I; [discriminate A|discriminate B|discriminate A]. }
  apply stands_finite in F as (k & S). exists k. split; [exact S|].
  pose proof (ieee_integer (- 2 ^ 24)) as P. pose proof (ieee_integer (2 ^ 24)) as Q.
  set (lo := nofZ (n:=IEEE32) (- 2 ^ 24)) in *. set (hi := nofZ (n:=IEEE32) (2 ^ 24)) in *.
  assert (EP : nofZ (n:=F32N) (- 2 ^ 24) = -1266679808) by (vm_compute; reflexivity). assert (EQ : nofZ (n:=F32N) (2 ^ 24) = 1266679808) by (vm_compute; reflexivity).
  rewrite EP in P. rewrite EQ in Q. unfold result_of in P, Q. cbn [Z.abs] in P, Q.
  destruct (Z.ltb_spec 1266679808 (255 * 2 ^ 23)) as [_|G]; [|lia].
  destruct (ieee_comparisons lo x _ _ P S) as (_ & E1 & _). destruct (ieee_comparisons x hi _ _ S Q) as (E2 & _).
  rewrite E1 in A. rewrite E2 in B. cbn [nltb nleb F32N] in A, B. apply Z.ltb_lt in A. apply Z.leb_le in B.
  unfold small. rewrite (sval_lt (-1266679808) k) in A || idtac. rewrite (sval_le k 1266679808) in B || idtac.
  assert (U1 : sval (-1266679808) = - 2 ^ 24 * 2 ^ 149) by (vm_compute; reflexivity).
  assert (U2 : sval 1266679808 = 2 ^ 24 * 2 ^ 149) by (vm_compute; reflexivity).
  rewrite <- U1, <- U2. split; [apply sval_lt; exact A|apply sval_le; exact B].
Qed.
Lemma lower_leb x thr : valid_binary 24 128 x = true -> moderate thr ->
  nleb (n:=IEEE32) x (lower_ieee thr) = if is_nan x then false else nltb (n:=IEEE32) x thr.
Proof.
  intros V M. destruct (moderate_stands thr M) as (k & S & R). pose proof (lower_stands thr k S R) as L.
  assert (LP : lower32 k = k - 1) by (apply lower_pred; exact R). rewrite LP in L.
  assert (FT : finite_value 24 128 thr) by (apply stands_finite; eauto).
  assert (FL : finite_value 24 128 (lower_ieee thr)) by (apply stands_finite; eauto).
  assert (FX : finite_value 24 128 x -> nleb (n:=IEEE32) x (lower_ieee thr) = nltb (n:=IEEE32) x thr).
  { intros F. apply stands_finite in F as (j & J). destruct (ieee_comparisons _ _ _ _ J L) as (E & _). destruct (ieee_comparisons _ _ _ _ J S) as (_ & E' & _).
    rewrite E, E'. cbn [nleb nltb F32N]. destruct (Z.leb_spec (sval j) (sval (k - 1))) as [G|G], (Z.ltb_spec (sval j) (sval k)) as [G'|G']; auto; exfalso.
    - apply (proj1 (sval_le _ _)) in G. apply (proj1 (sval_le _ _)) in G'. lia.
    - apply (proj1 (sval_lt _ _)) in G. apply (proj1 (sval_lt _ _)) in G'. lia. }
  destruct x as [s|s| |s m e]; cbn [is_nan].
  - apply FX. split; [exact V|exact I].
  - destruct FT as (_ & FT), FL as (_ & FL). cbn [nleb nltb IEEE32 IEEE]. destruct thr, (lower_ieee _); try contradiction; destruct s; reflexivity.
  - reflexivity.
  - apply FX. split; [exact V|exact I].
Qed.
Lemma valid_nth (row : list IEEE32) n : Forall (fun x => valid_binary 24 128 x = true) row -> valid_binary 24 128 (nth n row (nzero (n:=IEEE32))) = true.
Proof. intros V. destruct (nth_in_or_default n row (nzero (n:=IEEE32))) as [H|E]; [rewrite Forall_forall in V; auto|rewrite E; reflexivity]. Qed.
Lemma tree_missing {A} row (t : tree A IEEE32) : Forall (fun x => valid_binary 24 128 x = true) row -> Forall moderate (thresholds t) ->
  snd (exit_leaf (N:=IEEE32) row (convert lower_ieee (fun v => v) t)) = snd (exit_default nltb (fun _ => false) row t).
Proof.
  intros V. induction t as [a v|a f thr l IHl r IHr]; cbn [thresholds convert exit_leaf exit_default]; intros M; [reflexivity|].
  inversion M as [|? ? M1 M2]; subst. apply Forall_app in M2 as (M2 & M3). rewrite lower_leb; [|apply valid_nth, V|exact M1].
  destruct (if is_nan _ then _ else _); auto.
Qed.

Section Loading.
Variable rd : text -> option IEEE32.
Notation cell := (cell_of (N:=IEEE32) rd).
Theorem xgb_missing (ts : list (tree Z text)) ls f (X : list (list IEEE32)) :
  xgb_lines 0 ts ls -> file_text f ls -> Forall (xgb_ok (N:=IEEE32) rd) ts ->
  Forall (fun t => Forall (fun x => moderate (cell x)) (thresholds t)) ts ->
  (forall row, In row X -> Forall (fun x => valid_binary 24 128 x = true) row /\ Forall (fun t => Forall (fun i => 0 <= i < Z.of_nat (length row)) (splits t)) ts) ->
  exists e, xgb_load (N:=IEEE32) rd lower_ieee f = Ok e /\
    basic_scoring e X = Ok (map (booster_score (fun _ => false) (map (convert cell cell) ts)) X).
Proof.
  intros L F G R C. destruct (@C41_lemma IEEE32 rd lower_ieee ts ls f L F G) as (e & E1 & E2). exists e. split; [exact E1|].
  destruct E2 as (EN & _).
  set (ts2 := preorder_all 0 (map (convert (fun x => lower_ieee (cell x)) cell) ts) : list (tree Z IEEE32)) in *.
  assert (ER : map erase ts2 = map erase (map (convert (fun x => lower_ieee (cell x)) cell) ts)) by apply erase_all.
  rewrite (L_Ensemble.C31_lemma (N:=IEEE32) e ts2 _ X EN).
  - f_equal. apply map_ext_in. intros row Hrow. destruct (C row Hrow) as (V & _). rewrite (score_erase (N:=IEEE32) _ ts2 _ row ER). unfold ensemble_score, tree_scores, booster_score.
    clear - R V. generalize (nzero (n:=IEEE32)). induction ts as [|t ts IH]; intros y; [reflexivity|].
    inversion R as [|? ? R1 R2]; subst. cbn [map combine fold_left fst snd].
    replace (snd (exit_leaf (N:=IEEE32) row (convert (fun x => lower_ieee (cell x)) cell t))) with (snd (exit_default nltb (fun _ => false) row (convert cell cell t))); [apply IH; exact R2|].
    rewrite <- (tree_missing row (convert cell cell t) V).
    + f_equal. f_equal. clear. induction t; cbn [convert]; congruence.
    + clear - R1. induction t as [a v|a i x l IHl r IHr]; cbn [thresholds convert] in *; [constructor|]. inversion R1 as [|? ? Q1 Q2]; subst.
      apply Forall_app in Q2 as [Q2 Q3]. constructor; [exact Q1|]. apply Forall_app; auto.
  - intros row Hr. destruct (C row Hr) as (_ & C'). apply (covers_erase (N:=IEEE32) row (map (convert (fun x => lower_ieee (cell x)) cell) ts)); [symmetry; exact ER|].
    unfold covers. apply Forall_forall. intros t Ht. apply in_map_iff in Ht as (t0 & <- & H0). rewrite splits_convert. rewrite Forall_forall in C'. apply C'; exact H0.
Qed.
(** Rows without missing values: the defaults of the booster do not matter. *)
Theorem xgb_nothing_missing {A} (d : A -> bool) ts row : ~ In (S754_nan : IEEE32) row -> booster_score d ts row = booster_score (fun _ => false) ts row.
Proof.
  intros H. unfold booster_score. generalize (nzero (n:=IEEE32)). induction ts as [|t ts IH]; intros y; [reflexivity|]. cbn [fold_left].
  rewrite (default_irrelevant nltb d (fun _ => false) row t H). apply IH.
Qed.
End Loading.

Theorem equal_rows (e : ensemble IEEE32) X X' : Forall2 (Forall2 (fun x y => neqb (n:=IEEE32) x y = true)) X X' ->
  basic_scoring e X = basic_scoring e X' /\ detailed_scoring e X = detailed_scoring e X'.
Proof.
  intros F. apply scoring_like. induction F as [|r r' X X' H F IH]; constructor; [|exact IH]. clear - H.
  induction H as [|x y r r' Hx H IH]; constructor; [|exact IH]. intros thr _. exact (eqb_leb x y thr Hx).
Qed.
