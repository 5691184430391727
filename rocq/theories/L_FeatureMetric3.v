(** Proofs about feature importance with an arbitrary metric: whole trees and models. *)
From Coq Require Import List ZArith Bool Lia Permutation Arith.
From Verif Require Import Base Num Lists M_Dataset M_Ensemble S_Ensemble L_Ensemble L_Ensemble2 M_Effectiveness S_Feature L_Loaders L_Feature2 L_Feature3 L_Feature5
  M_FeatureMetric S_FeatureMetric L_FeatureMetric L_FeatureMetric2.
Import ListNotations.
Local Open Scope Z_scope.

Lemma nth_upd {A} (l : list A) : forall k j v x, (k < length l)%nat -> nth j (upd l k v) x = if (j =? k)%nat then v else nth j l x.
Proof. induction l as [|a l IH]; intros [|k] [|j] v x H; cbn [length] in H; try lia; try reflexivity. cbn [upd nth Nat.eqb]. apply IH. lia. Qed.

Section Pointwise.
Context {N : Num.num}.
Lemma credits (l : list (Z * N)) f : forall imp, Forall (fun q => 0 <= fst q < Z.of_nat (length imp)) l -> 0 <= f ->
  length (fold_left credit l imp) = length imp /\
  nth (Z.to_nat f) (fold_left credit l imp) nzero = fold_left (fun a v => nf32 (nadd a v)) (map snd (filter (fun q => fst q =? f) l)) (nth (Z.to_nat f) imp nzero).
Proof.
  induction l as [|[g v] l IH]; intros imp H Hf; [split; reflexivity|]. inversion H as [|q l' Hg Hl]. subst. cbn [fst] in Hg. cbn [fold_left].
  assert (E : length (credit imp (g, v)) = length imp) by apply upd_length.
  destruct (IH (credit imp (g, v))) as [I1 I2]; [rewrite E; exact Hl|exact Hf|]. split; [congruence|]. rewrite I2. cbn [filter fst].
  unfold credit. cbn [fst snd]. rewrite nth_upd by lia. destruct (Z.eqb_spec g f) as [->|Hn].
  - rewrite Nat.eqb_refl. reflexivity.
  - destruct (Nat.eqb_spec (Z.to_nat f) (Z.to_nat g)); [lia|]. reflexivity.
Qed.
Lemma counts (l : list Z) f : forall cnt, Forall (fun g => 0 <= g < Z.of_nat (length cnt)) l -> 0 <= f -> 0 <= nth (Z.to_nat f) cnt 0 < 2 ^ 16 ->
  length (fold_left count l cnt) = length cnt /\
  nth (Z.to_nat f) (fold_left count l cnt) 0 = (nth (Z.to_nat f) cnt 0 + Z.of_nat (length (filter (Z.eqb f) l))) mod 2 ^ 16.
Proof.
  induction l as [|g l IH]; intros cnt H Hf Hb; [split; [reflexivity|]; cbn [filter length fold_left]; rewrite Z.add_0_r, Z.mod_small by exact Hb; reflexivity|].
  inversion H as [|q l' Hg Hl]. subst. cbn [fold_left].
  assert (E : length (count cnt g) = length cnt) by apply upd_length.
  assert (V : nth (Z.to_nat f) (count cnt g) 0 = if f =? g then (nth (Z.to_nat f) cnt 0 + 1) mod 2 ^ 16 else nth (Z.to_nat f) cnt 0).
  { unfold count. rewrite nth_upd by lia. destruct (Z.eqb_spec f g) as [->|Hn]; [rewrite Nat.eqb_refl; reflexivity|]. destruct (Nat.eqb_spec (Z.to_nat f) (Z.to_nat g)); [lia|]. reflexivity. }
  destruct (IH (count cnt g)) as [I1 I2]; [rewrite E; exact Hl|exact Hf|rewrite V; destruct (f =? g); [apply Z.mod_pos_bound; reflexivity|exact Hb]|].
  split; [congruence|]. rewrite I2, V. cbn [filter]. destruct (f =? g); [|reflexivity]. cbn [length]. rewrite Zplus_mod_idemp_l. f_equal. lia.
Qed.
End Pointwise.

Section Model.
Context {N : Num.num}.
Variable sum : list N -> N.
Variable (e : ensemble N) (ts : list (tree Z N)) (ws : list N) (d : dataset N) (metric : evaluator (N:=N)) (value : list N -> N).
Notation rows := (ds_X d).
Notation n := (length (ds_X d)).
Notation all := (zrange 0 (Z.of_nat n)).
Notation nf := (ds_nf d).
Hypothesis Hlay : laid_out e ts ws.
Hypothesis Hdec : decides N.
Hypothesis Hy : length (ds_y d) = n.
Hypothesis Hw : Forall (fun r => length r = nf) rows.
Hypothesis Hm : forall s, length s = n -> exists v, metric d s = Ok (value s, v).
Hypothesis Hts : Forall (fun t => is_split t = true /\ Forall (fun f => 0 <= f < Z.of_nat nf) (splits t)) ts.
Notation labels := (fun i => nth (Z.to_nat i) (ds_y d) nzero).

Lemma metric_tree_ok k t w imp cnt p : nth_error ts k = Some t -> nth_error ws k = Some w -> length imp = nf -> length cnt = nf ->
  let y := fun i => nsub (labels i) (p i) in
  metric_tree sum e d metric (imp, cnt, img n p) (Z.of_nat k) =
  Ok (fold_left credit (changes sum rows value t y p) imp, fold_left count (concat (map (level_features d t) (seq 0 (height t)))) cnt,
      img n (fun i => nadd (p i) (nmul (predicted sum rows t y (height t) i) w))).
Proof.
  intros Ht Hwk Hi Hc y.
  assert (T : is_split t = true /\ Forall (fun f => 0 <= f < Z.of_nat nf) (splits t)) by (rewrite Forall_forall in Hts; apply Hts; apply (nth_error_In _ _ Ht)).
  destruct T as [Hs Hf]. destruct Hlay as ((_ & Er & Ew & _ & Hreps) & Hcons & _ & El & _).
  assert (Hrep : represents e t) by (rewrite Forall_forall in Hreps; apply Hreps; apply (nth_error_In _ _ Ht)).
  destruct (consecutive_nth _ _ _ _ Hcons Ht) as (_ & _ & Hsz).
  assert (Hk : (k < length ts)%nat) by (apply nth_error_Some; congruence).
  unfold metric_tree.
  assert (Y : vec nsub (ds_y d) (img n p) = img n y) by (rewrite (list_img n (ds_y d) Hy) at 1; apply vec_img).
  rewrite Y, img_length. unfold n_instances. rewrite Hy, repeat_img.
  rewrite Er. rewrite (py_get_zget _ _ (mark t)).
  2:{ unfold zget. destruct (Z.ltb_spec (Z.of_nat k) 0); [lia|]. rewrite Nat2Z.id, nth_error_map'. rewrite Ht. reflexivity. }
  cbn [bind]. set (s0 := mkM _ imp cnt).
  assert (H0 : exists pre, length pre = 0%nat /\ ms_levels s0 = pre ++ [img n (predicted sum rows t y 0)]).
  { exists []. split; [reflexivity|]. unfold s0. cbn [ms_levels app]. f_equal.
    apply img_ext. intros i _. cbn [predicted]. unfold average, img. rewrite zrange_length. do 2 f_equal. lia. }
  destruct (levels_ok sum e d metric value Hdec Hy Hw Hm y p t Hrep Hs Hf (height t) 0 s0 (S (length (e_left e))) eq_refl) as (s & pre & E & L & I & C).
  - pose proof (Permutation_length (levels_splits rows t (height t) all (le_n _))) as P. unfold level_features. rewrite P.
    pose proof (splits_size t). rewrite El. lia.
  - exact H0.
  - exact Hi.
  - exact Hc.
  - assert (Q : map (item 0) (nodes_at rows 0 t all) = [(mark t, 0%nat, None)]) by (destruct t; [discriminate|reflexivity]).
    rewrite Q in E. rewrite E. cbn [bind]. rewrite Ew, (py_get_zget _ _ w).
    2:{ unfold zget. destruct (Z.ltb_spec (Z.of_nat k) 0); [lia|]. rewrite Nat2Z.id. exact Hwk. }
    cbn [bind]. rewrite I, C, L, last_last, map_img, vec_img. reflexivity.
Qed.

Lemma metric_model_ok : forall us vs k imp cnt p, skipn k ts = us -> skipn k ws = vs -> length imp = nf -> length cnt = nf -> (forall f, 0 <= nth f cnt 0 < 2 ^ 16) ->
  exists imp' cnt' yp', foldM (metric_tree sum e d metric) (zrange (Z.of_nat k) (Z.of_nat k + Z.of_nat (length us))) (imp, cnt, img n p) = Ok (imp', cnt', yp') /\
    length imp' = nf /\ length cnt' = nf /\
    forall f, 0 <= f < Z.of_nat nf ->
      nth (Z.to_nat f) imp' nzero = fold_left (fun a v => nf32 (nadd a v)) (map snd (filter (fun q => fst q =? f) (all_changes sum rows value labels vs us p))) (nth (Z.to_nat f) imp nzero) /\
      nth (Z.to_nat f) cnt' 0 = (nth (Z.to_nat f) cnt 0 + uses f us) mod 2 ^ 16.
Proof.
  induction us as [|t us IH]; intros vs k imp cnt p E Ev Hi Hc Hb.
  - exists imp, cnt, (img n p). cbn [length]. rewrite Z.add_0_r. unfold zrange at 1. rewrite Z.sub_diag. split; [reflexivity|]. split; [exact Hi|]. split; [exact Hc|].
    intros f _. split; [destruct vs; reflexivity|]. cbn. rewrite Z.add_0_r, Z.mod_small by apply Hb. reflexivity.
  - assert (Hk : (k < length ts)%nat) by (destruct (Nat.le_gt_cases (length ts) k); [rewrite skipn_all2 in E by lia; discriminate|lia]).
    assert (Ht : nth_error ts k = Some t).
    { rewrite <- (firstn_skipn k ts), E. rewrite nth_error_app2; rewrite firstn_length, Nat.min_l by lia; [|lia]. rewrite Nat.sub_diag. reflexivity. }
    pose proof (ws_length e ts ws Hlay) as HWL.
    destruct vs as [|w vs]; [apply (f_equal (@length N)) in Ev; rewrite skipn_length in Ev; cbn in Ev; lia|].
    assert (Hwk : nth_error ws k = Some w).
    { rewrite <- (firstn_skipn k ws), Ev. rewrite nth_error_app2; rewrite firstn_length, Nat.min_l by lia; [|lia]. rewrite Nat.sub_diag. reflexivity. }
    assert (T : Forall (fun f => 0 <= f < Z.of_nat nf) (splits t)) by (rewrite Forall_forall in Hts; apply Hts; apply (nth_error_In _ _ Ht)).
    pose proof (levels_splits rows t (height t) all (le_n _)) as P.
    change (map (fun k => map (fun v => fst (fst v)) (splits_at rows k t all)) (seq 0 (height t))) with (map (level_features d t) (seq 0 (height t))) in P.
    set (y := fun i => nsub (labels i) (p i)).
    assert (F1 : Forall (fun g => 0 <= g < Z.of_nat nf) (concat (map (level_features d t) (seq 0 (height t))))).
    { rewrite Forall_forall in T |- *. intros g Hg. apply T. apply (Permutation_in _ P Hg). }
    assert (F2 : Forall (fun q => 0 <= fst q < Z.of_nat nf) (changes sum rows value t y p)).
    { rewrite Forall_forall in F1 |- *. intros q Hq. apply F1. unfold changes in Hq. apply in_concat in Hq. destruct Hq as [l [Hl Hq]]. apply in_map_iff in Hl.
      destruct Hl as [h [<- Hh]]. apply in_map_iff in Hq. destruct Hq as [v [<- Hv]]. apply in_concat. exists (level_features d t h). split; [apply in_map, Hh|].
      cbn [fst]. unfold level_features. apply in_map_iff. exists v. auto. }
    set (imp1 := fold_left credit (changes sum rows value t y p) imp). set (cnt1 := fold_left count (concat (map (level_features d t) (seq 0 (height t)))) cnt).
    assert (L1 : length imp1 = nf) by (unfold imp1; rewrite (proj1 (credits _ 0 imp (eq_ind_r (fun z => Forall (fun q => 0 <= fst q < Z.of_nat z) _) F2 Hi) (Z.le_refl 0))); exact Hi).
    assert (L2 : length cnt1 = nf /\ forall f, 0 <= nth f cnt1 0 < 2 ^ 16).
    { split; [|intros f]; [|rewrite <- (Nat2Z.id f)]; destruct (counts (concat (map (level_features d t) (seq 0 (height t)))) (Z.of_nat f) cnt) as [A B] || destruct (counts (concat (map (level_features d t) (seq 0 (height t)))) 0 cnt) as [A B];
      try (rewrite Hc; exact F1); try apply Hb; try lia; fold cnt1 in A, B; [lia|]. rewrite B. apply Z.mod_pos_bound. reflexivity. }
    destruct (IH vs (S k) imp1 cnt1 (fun i => nadd (p i) (nmul (predicted sum rows t y (height t) i) w))) as (imp' & cnt' & yp' & E' & A & B & C).
    + rewrite skipn_S, E. reflexivity.
    + rewrite skipn_S, Ev. reflexivity.
    + exact L1.
    + apply L2.
    + apply L2.
    + exists imp', cnt', yp'. split; [|split; [exact A|split; [exact B|]]].
      * cbn [length]. rewrite zrange_cons by lia. cbn [foldM]. rewrite (metric_tree_ok k t w imp cnt p Ht Hwk Hi Hc). cbn [bind]. fold y imp1 cnt1.
        replace (Z.of_nat k + 1) with (Z.of_nat (S k)) by lia. replace (Z.of_nat k + Z.of_nat (S (length us))) with (Z.of_nat (S k) + Z.of_nat (length us)) by lia. exact E'.
      * intros f Hf. destruct (C f Hf) as [C1 C2].
        destruct (credits (changes sum rows value t y p) f imp) as [_ D1]; [rewrite Hi; exact F2|lia|].
        destruct (counts (concat (map (level_features d t) (seq 0 (height t)))) f cnt) as [_ D2]; [rewrite Hc; exact F1|lia|apply Hb|]. split.
        -- rewrite C1. fold imp1 in D1. rewrite D1. cbn [all_changes]. fold y. rewrite filter_app, map_app, fold_left_app. reflexivity.
        -- rewrite C2. fold cnt1 in D2. rewrite D2, Zplus_mod_idemp_l. f_equal. unfold uses. cbn [map concat]. rewrite filter_app, app_length.
           rewrite <- (Permutation_length (Permutation_filter _ P)). lia.
Qed.

Lemma metric_importance_ok : exists imp cnt, metric_importance sum e d metric false = Ok (imp, cnt) /\ length imp = nf /\ length cnt = nf /\
  forall f, 0 <= f < Z.of_nat nf ->
    nth (Z.to_nat f) imp nzero = credited f (all_changes sum rows value labels ws ts (fun _ => nzero)) /\
    nth (Z.to_nat f) cnt 0 = uses f ts mod 2 ^ 16.
Proof.
  destruct (metric_model_ok ts ws 0 (repeat nzero nf) (repeat 0 nf) (fun _ => nzero) eq_refl eq_refl) as (imp & cnt & yp & E & A & B & C).
  - apply repeat_length.
  - apply repeat_length.
  - intros f. rewrite nth_repeat. lia.
  - exists imp, cnt. unfold metric_importance. rewrite (ntrees e ts ws Hlay). unfold n_instances. rewrite Hy, (repeat_img n nzero).
    change (zrange (Z.of_nat 0) (Z.of_nat 0 + Z.of_nat (length ts))) with (zrange 0 (Z.of_nat (length ts))) in E. rewrite E. cbn [bind fst snd].
    split; [reflexivity|]. split; [exact A|]. split; [exact B|]. intros f Hf. destruct (C f Hf) as [C1 C2]. split.
    + rewrite C1, nth_repeat. reflexivity.
    + rewrite C2, nth_repeat. reflexivity.
Qed.
End Model.
