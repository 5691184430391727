(** Proofs about feature importance with an arbitrary metric: C75, C76. *)
From Coq Require Import List ZArith Bool Lia Lra Reals Permutation Arith.
From Verif Require Import Base Num Lists M_Dataset S_Dataset L_Dataset M_Ensemble S_Ensemble L_Ensemble L_Ensemble2 M_Metrics S_Metrics L_MetricEval M_Effectiveness S_Feature L_Loaders M_Feature L_Feature2 L_Feature3 L_Feature4 L_Feature5 L_Feature6
  M_FeatureMetric S_FeatureMetric L_FeatureMetric L_FeatureMetric2 L_FeatureMetric3 L_FeatureMetric4.
Import ListNotations.
Local Open Scope Z_scope.

Lemma few_visits {N : Num.num} (rows : list (list N)) f : forall t M, visits_of f (visited rows t M) <= Z.of_nat (length (filter (Z.eqb f) (splits t))).
Proof.
  unfold visits_of. induction t as [i v|i g thr l IHl r IHr]; intros M; cbn [visited splits filter length]; [lia|]. cbn [fst].
  specialize (IHl (lefts rows g thr M)). specialize (IHr (rights rows g thr M)).
  rewrite !filter_app, (Z.eqb_sym f g).
  assert (A : Z.of_nat (length (filter (fun p => fst (fst p) =? f) (if (2 <=? length (lefts rows g thr M))%nat then visited rows l (lefts rows g thr M) else []))) <= Z.of_nat (length (filter (Z.eqb f) (splits l)))) by (destruct (2 <=? length (lefts rows g thr M))%nat; [exact IHl|cbn; lia]).
  assert (B : Z.of_nat (length (filter (fun p => fst (fst p) =? f) (if (2 <=? length (rights rows g thr M))%nat then visited rows r (rights rows g thr M) else []))) <= Z.of_nat (length (filter (Z.eqb f) (splits r)))) by (destruct (2 <=? length (rights rows g thr M))%nat; [exact IHr|cbn; lia]).
  destruct (g =? f); cbn [length]; rewrite !app_length; lia.
Qed.
Lemma few_visits_all {N : Num.num} (d : dataset N) f ts : 0 <= total_visits d f ts <= uses f ts.
Proof.
  induction ts as [|t ts IH]; [cbn; lia|]. unfold uses in *. cbn [total_visits fold_right map concat]. fold (total_visits d f ts). rewrite filter_app, app_length.
  pose proof (few_visits (ds_X d) f t (zrange 0 (Z.of_nat (length (ds_X d))))). pose proof (visits_nonneg f (visited (ds_X d) t (zrange 0 (Z.of_nat (length (ds_X d)))))). lia.
Qed.

Lemma sse_images (y s : list R) k : length y = k -> length s = k ->
  S_Metrics.sse y s = S_Feature.sse (fun i => nth (Z.to_nat i) y 0%R) (fun i => nth (Z.to_nat i) s 0%R) (zrange 0 (Z.of_nat k)).
Proof.
  intros Hy Hs. pose proof (list_img (N:=RE) k y Hy) as Ey. pose proof (list_img (N:=RE) k s Hs) as Es. rewrite Ey at 1. rewrite Es at 1. unfold S_Metrics.sse, S_Feature.sse, img, Rtotal.
  f_equal. induction (zrange 0 (Z.of_nat k)) as [|i l IH]; [reflexivity|]. cbn [map combine fst snd]. rewrite IH. f_equal. change (@nzero RE) with 0%R. cbn [pow]. now rewrite Rmult_1_r.
Qed.

Lemma C76_general (red sum : list RE -> RE) (e : ensemble RE) ts ws (d : dataset RE) (metric : evaluator (N:=RE)) :
  (forall l, red l = Rtotal l) -> (forall l, sum l = Rtotal l) ->
  laid_out e ts ws -> fits (ds_X d) (ds_nf d) -> length (ds_y d) = length (ds_X d) -> Forall (visitable (ds_X d) (ds_nf d)) ts ->
  (forall s, length s = length (ds_X d) -> exists v, metric d s = Ok ((S_Metrics.sse (ds_y d) s / INR (length (ds_X d)))%R : RE, v)) ->
  exists imp cnt cnt', eff_importance red e d = Ok (imp, cnt) /\ metric_importance sum e d metric false = Ok (imp, cnt') /\
    forall f, 0 <= f < Z.of_nat (ds_nf d) -> uses f ts < 2 ^ 16 -> nth (Z.to_nat f) cnt 0 <= nth (Z.to_nat f) cnt' 0 /\ nth (Z.to_nat f) cnt' 0 = uses f ts.
Proof.
  intros Hred Hsum Hlay Hfit Hy Hvis Hm.
  destruct (eff_real red Hred e ts ws d Hlay Hfit Hy Hvis) as (imp & cnt & E1 & L1 & V1).
  destruct (eff_ok red e ts ws d Hlay Hfit Hy Hvis) as (imp0 & cnt0 & E0 & _ & L0 & V0). rewrite E1 in E0. injection E0 as <- <-.
  destruct (metric_importance_ok sum e ts ws d metric (fun s => (S_Metrics.sse (ds_y d) s / INR (length (ds_X d)))%R : RE) Hlay decides_R Hy (proj1 (proj2 Hfit)) Hm) as (imp' & cnt' & E2 & L2 & L3 & V2).
  { rewrite Forall_forall in Hvis |- *. intros t Ht. destruct (Hvis t Ht) as (A & B & _). auto. }
  exists imp, cnt, cnt'. split; [exact E1|]. assert (EI : imp = imp').
  { apply (nth_ext _ _ (@nzero RE) (@nzero RE)); [congruence|]. intros k Hk. rewrite L1 in Hk. destruct (V2 (Z.of_nat k)) as [V _]; [lia|]. rewrite Nat2Z.id in V. rewrite V.
    specialize (V1 (Z.of_nat k)). rewrite Nat2Z.id in V1. change (@nzero RE) with 0%R at 1. rewrite V1 by lia. symmetry.
    apply (all_gains (ds_X d) sum Hsum _ (fun i => nth (Z.to_nat i) (ds_y d) 0%R)).
    - intros s. rewrite (sse_images _ _ (length (ds_X d)) Hy) by (rewrite map_length, zrange_length; lia). f_equal. apply sse_ext. intros i Hi. apply (img_nth (N:=RE) (length (ds_X d)) s i 0%R Hi).
    - apply (ws_length e ts ws Hlay).
    - rewrite Forall_forall. intros t Ht. apply In_nth_error in Ht. destruct Ht as [j Hj]. apply (nodup_tree e ts ws j t Hlay Hj).
    - rewrite Forall_forall in Hvis |- *. intros t Ht. apply (Hvis t Ht).
    - intros i _. change (@nzero RE) with 0%R. symmetry. apply Rminus_0_r. }
  subst imp'. split; [exact E2|]. intros f Hf Hu. destruct (V2 f Hf) as [_ C]. rewrite C, (V0 f Hf). pose proof (few_visits_all d f ts).
  unfold wrap_u. rewrite !Z.mod_small by lia. lia.
Qed.

Lemma C76_lemma (red sum : list RE -> RE) (argsort : list RE -> list nat) (e : ensemble RE) ts ws nf X (y : list RE) ids (d : dataset RE) :
  (forall l, red l = Rtotal l) -> (forall l, sum l = Rtotal l) ->
  built nf X y ids d -> Permutation (ds_qids d) (map Z.of_nat (seq 0 (n_queries d))) -> length X = length ids ->
  laid_out e ts ws -> fits X nf -> Forall (visitable X nf) ts ->
  exists imp cnt cnt', eff_importance red e d = Ok (imp, cnt) /\ metric_importance sum e d (mse_eval argsort None) false = Ok (imp, cnt') /\
    forall f, 0 <= f < Z.of_nat nf -> uses f ts < 2 ^ 16 -> nth (Z.to_nat f) cnt 0 <= nth (Z.to_nat f) cnt' 0 /\ nth (Z.to_nat f) cnt' 0 = uses f ts.
Proof.
  intros Hred Hsum B HP HX Hlay Hfit Hvis. pose proof B as (Ly & _ & _ & H).
  assert (ED : ds_X d = X /\ ds_y d = y /\ ds_nf d = nf) by (destruct (ds_init_inv _ _ _ _ H) as [_ E]; subst d; repeat split; reflexivity).
  destruct ED as (E1 & E2 & E3).
  destruct (C76_general red sum e ts ws d (mse_eval argsort None) Hred Hsum Hlay) as (imp & cnt & cnt' & A1 & A2 & A3); rewrite ?E1, ?E2, ?E3; try assumption.
  - congruence.
  - intros s Hs. destruct (C29_lemma argsort nf X y ids d s B) as (v & C & _); [congruence|exact HP|]. exists v. rewrite C, HX. reflexivity.
  - exists imp, cnt, cnt'. rewrite E3 in A3. auto.
Qed.

(** Normalisation. *)
Lemma normalize_any {N : Num.num} (sum : list N -> N) e d metric imp cnt : metric_importance sum e d metric false = Ok (imp, cnt) ->
  metric_importance sum e d metric true = do m <- nmax imp; Ok (map (fun a => nf32 (ndiv a m)) imp, cnt).
Proof.
  unfold metric_importance. destruct (foldM _ _ _) as [s|x]; [|discriminate]. cbn [bind]. intros H. injection H as <- <-. destruct (nmax _); reflexivity.
Qed.
Lemma divided (a b m : R) : (m < 0 -> a < b -> b < 0 -> 0 < b / m < a / m)%R.
Proof.
  intros Hm H Hb. pose proof (Rinv_lt_0_compat m Hm) as I. unfold Rdiv. pose proof (Rmult_lt_0_compat (- b) (- / m)). pose proof (Rmult_lt_0_compat (b - a) (- / m)). lra.
Qed.
Lemma normalize_reverses (sum : list RE -> RE) e d metric imp cnt : metric_importance sum e d metric false = Ok (imp, cnt) -> imp <> [] -> (forall v, In v imp -> (v < 0)%R) ->
  exists imp', metric_importance sum e d metric true = Ok (imp', cnt) /\ length imp' = length imp /\
    forall f g, (f < length imp)%nat -> (g < length imp)%nat -> (nth f imp 0 < nth g imp 0)%R -> (0 < nth g imp' 0 < nth f imp' 0)%R.
Proof.
  intros E Hne Hneg. rewrite (normalize_any _ _ _ _ _ _ E). destruct imp as [|x l]; [contradiction|]. destruct (fold_max_R l x) as [I1 I2].
  set (m := fold_left (fun m v => if Rleb m v || negb (Rleb v v) then v else m) l x) in *.
  exists (map (fun a => a / m)%R (x :: l)). split; [reflexivity|]. split; [apply map_length|]. intros f g Hf Hg H.
  assert (Hm : (m < 0)%R) by (apply Hneg, I1).
  assert (G : forall k, (k < length (x :: l))%nat -> nth k (map (fun a => a / m)%R (x :: l)) 0%R = (nth k (x :: l) 0 / m)%R).
  { intros k Hk. rewrite (nth_indep _ 0%R (0 / m)%R) by (rewrite map_length; exact Hk). apply (map_nth (fun a => a / m)%R). }
  rewrite !G by assumption. pose proof (Hneg _ (nth_In _ 0%R Hg)) as Ng.
  set (a := nth f (x :: l) 0%R) in *. set (b := nth g (x :: l) 0%R) in *. apply (divided a b m); [exact Hm|exact H|exact Ng].
Qed.
