(** Proofs about feature importance with an arbitrary metric: the queue. *)
From Coq Require Import List ZArith Bool Lia Permutation Arith.
From Verif Require Import Base Num Lists M_Dataset M_Ensemble S_Ensemble L_Ensemble L_Ensemble2 M_Effectiveness S_Feature L_Feature2 L_Feature3 M_FeatureMetric S_FeatureMetric L_FeatureMetric.
Import ListNotations.
Local Open Scope Z_scope.

Lemma upd_app2 {A} (p : list A) a b v : upd (p ++ [a; b]) (length p + 1) v = p ++ [a; v].
Proof. induction p as [|x p IH]; [reflexivity|]. cbn [app length Nat.add upd]. rewrite IH. reflexivity. Qed.

Section Tree.
Context {N : Num.num}.
Variable sum : list N -> N.
Variable (e : ensemble N) (d : dataset N) (metric : evaluator (N:=N)) (value : list N -> N).
Notation rows := (ds_X d).
Notation n := (length (ds_X d)).
Notation all := (zrange 0 (Z.of_nat n)).
Notation nf := (ds_nf d).
Hypothesis Hdec : decides N.
Hypothesis Hy : length (ds_y d) = n.
Hypothesis Hw : Forall (fun r => length r = nf) rows.
Hypothesis Hm : forall s, length s = n -> exists v, metric d s = Ok (value s, v).
Variables (y p : Z -> N).
Notation yt := (img n y).
Notation yp := (img n p).

Lemma leaf_ok t : represents e t -> is_leaf_node e (mark t) = Ok (negb (is_split t)).
Proof.
  intros H. unfold is_leaf_node. destruct t as [i v|i f thr l r]; cbn [mark is_split negb]; cbn [represents] in H.
  - destruct H as (H1 & H2 & _). rewrite (py_get_zget _ _ _ H1), (py_get_zget _ _ _ H2). reflexivity.
  - destruct H as (H1 & H2 & _ & _ & Hl & _). rewrite (py_get_zget _ _ _ H1). cbn [bind].
    pose proof (rep_range e l Hl). destruct (Z.eqb_spec (mark l) (-1)); [lia|reflexivity].
Qed.

(** The levels while depth [k] is visited. *)
Definition shape (k : nat) (cur nx : Z -> N) (L : list (list N)) : Prop :=
  exists pre, length pre = k /\ (L = pre ++ [img n cur; img n nx] \/ (L = pre ++ [img n cur] /\ img n nx = img n cur)).
Definition full (k : nat) (cur nx : Z -> N) (L : list (list N)) : Prop := exists pre, length pre = k /\ L = pre ++ [img n cur; img n nx].
Lemma full_shape k cur nx L : full k cur nx L -> shape k cur nx L.
Proof. intros [pre [H E]]. exists pre. split; [exact H|left; exact E]. Qed.
Definition improved (cur : Z -> N) (v : Z * list Z * list Z) (i : Z) : N :=
  if existsb (Z.eqb i) (snd (fst v)) then nf32 (average sum y (snd (fst v)))
  else if existsb (Z.eqb i) (snd v) then nf32 (average sum y (snd v)) else nf32 (cur i).
Definition delta (cur : Z -> N) (v : Z * list Z * list Z) : N :=
  nsub (value (img n (fun i => nadd (nf32 (cur i)) (p i)))) (value (img n (fun i => nadd (improved cur v i) (p i)))).
Definition credit (imp : list N) (q : Z * N) : list N := upd imp (Z.to_nat (fst q)) (nf32 (nadd (nth (Z.to_nat (fst q)) imp nzero) (snd q))).
Definition count (cnt : list Z) (f : Z) : list Z := upd cnt (Z.to_nat f) (wrap_u 16 (nth (Z.to_nat f) cnt 0 + 1)).
Definition item (k : nat) (q : tree Z N * list Z) : mitem := (mark (fst q), k, match k with O => None | S _ => Some (snd q) end).

Lemma sides_ok f thr M : 0 <= f < Z.of_nat nf -> incl M all ->
  exists xs, mapM (fun i => do row <- py_get rows i; py_get row f) M = Ok xs /\
    map fst (filter (fun q => nleb (snd q) thr) (combine M xs)) = lefts rows f thr M /\
    map fst (filter (fun q => nltb thr (snd q)) (combine M xs)) = rights rows f thr M.
Proof.
  intros Hf HM. set (x := fun i => nth (Z.to_nat f) (nth (Z.to_nat i) rows []) nzero). exists (map x M). split; [|split].
  - apply mapM_ok. intros i Hi. apply HM, in_zrange in Hi. rewrite (py_get_range _ _ []) by lia. cbn [bind].
    apply py_get_range. rewrite Forall_forall in Hw. rewrite (Hw (nth (Z.to_nat i) rows [])); [exact Hf|]. apply nth_In. lia.
  - clear HM. unfold lefts. induction M as [|i M IH]; [reflexivity|]. cbn [map combine filter snd]. change (nleb (x i) thr) with (goes_left rows f thr i). destruct (goes_left rows f thr i); cbn [map fst]; rewrite IH; reflexivity.
  - clear HM. unfold rights. induction M as [|i M IH]; [reflexivity|]. cbn [map combine filter snd]. rewrite Hdec. change (nleb (x i) thr) with (goes_left rows f thr i). destruct (goes_left rows f thr i); cbn [negb map fst]; rewrite IH; reflexivity.
Qed.

Lemma side_split f thr M i : In i M <-> In i (lefts rows f thr M) \/ In i (rights rows f thr M).
Proof. unfold lefts, rights. rewrite !filter_In. destruct (goes_left rows f thr i); cbn; intuition; discriminate. Qed.
Lemma side_disjoint f thr M i : In i (lefts rows f thr M) -> In i (rights rows f thr M) -> False.
Proof. unfold lefts, rights. rewrite !filter_In. intros [_ H] [_ H']. rewrite H in H'. discriminate. Qed.

Lemma visit_ok s k cur nx q : represents e (fst q) -> is_split (fst q) = true -> (forall f, fst (fst (data rows q)) = f -> 0 <= f < Z.of_nat nf) ->
  incl (snd q) all -> (k = O -> snd q = all) -> shape k cur nx (ms_levels s) -> length (ms_imp s) = nf -> length (ms_cnt s) = nf ->
  exists s', metric_visit sum e d metric yt yp s (item k q) = Ok (s', map (item (S k)) (children rows q)) /\
    full k cur (fun i => if existsb (Z.eqb i) (snd q) then improved cur (data rows q) i else nx i) (ms_levels s') /\
    ms_imp s' = credit (ms_imp s) (fst (fst (data rows q)), delta cur (data rows q)) /\ ms_cnt s' = count (ms_cnt s) (fst (fst (data rows q))).
Proof.
  destruct q as [t M]. cbn [fst snd]. intros Hr Hs Hf HM Hk [pre [Hp HL]] Hi Hc. destruct t as [|i f thr l r]; [discriminate|]. cbn [data fst snd] in *.
  specialize (Hf f eq_refl). set (L := lefts rows f thr M). set (R := rights rows f thr M).
  assert (IL : incl L all) by (intros x Hx; apply HM, (lefts_incl rows f thr M x Hx)). assert (IR : incl R all) by (intros x Hx; apply HM, (rights_incl rows f thr M x Hx)).
  destruct Hr as (R1 & R2 & R3 & R4 & Hrl & Hrr). destruct (sides_ok f thr M Hf HM) as (xs & X1 & X2 & X3).
  assert (DM : match (match k with O => None | S _ => Some M end) with Some M => M | None => all end = M) by (destruct k; [symmetry; apply Hk; reflexivity|reflexivity]).
  assert (HN : nth_error (ms_levels s) k = Some (img n cur)).
  { destruct HL as [->|[-> _]]; rewrite nth_error_app2, Hp, Nat.sub_diag by lia; reflexivity. }
  set (levels := if (length (ms_levels s) - 1 <? k + 1)%nat then ms_levels s ++ [img n cur] else ms_levels s).
  assert (HL2 : levels = pre ++ [img n cur; img n nx]).
  { unfold levels. destruct HL as [->|[-> E]]; rewrite app_length; cbn [length].
    - destruct (Nat.ltb_spec (length pre + 2 - 1) (k + 1)); [lia|reflexivity].
    - destruct (Nat.ltb_spec (length pre + 1 - 1) (k + 1)); [|lia]. rewrite <- app_assoc, E. reflexivity. }
  set (after := improved cur (f, L, R)).
  assert (M1 : set_mean sum yt L (map nf32 (img n cur)) = Ok (img n (fun j => if existsb (Z.eqb j) L then nf32 (average sum y L) else nf32 (cur j)))).
  { rewrite map_img. apply set_mean_ok, IL. }
  assert (M2 : set_mean sum yt R (img n (fun j => if existsb (Z.eqb j) L then nf32 (average sum y L) else nf32 (cur j))) = Ok (img n after)).
  { rewrite set_mean_ok by exact IR. f_equal. apply img_ext. intros j _. unfold after, improved. cbn [fst snd].
    destruct (existsb (Z.eqb j) R) eqn:ER, (existsb (Z.eqb j) L) eqn:EL; try reflexivity.
    apply existsb_in in ER, EL. exfalso. apply (side_disjoint f thr M j EL ER). }
  set (nx' := fun j => if existsb (Z.eqb j) M then after j else nx j).
  assert (M3 : match (match k with O => None | S _ => Some M end) with Some M => foldM (fun a i => do v <- py_get (img n after) i; py_set a i v) M (img n nx) | None => Ok (img n after) end = Ok (img n nx')).
  { destruct k.
    - f_equal. apply img_ext. intros j Hj. unfold nx'. rewrite (Hk eq_refl). rewrite (proj2 (existsb_in j all) Hj). reflexivity.
    - rewrite copy_all by exact HM. reflexivity. }
  destruct (Hm (img n (fun i => nadd (nf32 (cur i)) (p i))) (img_length n _)) as [v1 V1].
  destruct (Hm (img n (fun i => nadd (after i) (p i))) (img_length n _)) as [v2 V2].
  exists (mkM (pre ++ [img n cur; img n nx']) (credit (ms_imp s) (f, delta cur (f, L, R))) (count (ms_cnt s) f)). cbn [ms_levels ms_imp ms_cnt].
  split; [|split; [exists pre; split; [exact Hp|reflexivity]|split; reflexivity]].
  unfold metric_visit, item. cbn [fst snd mark]. rewrite (py_get_zget _ _ _ R3). cbn [bind]. rewrite (py_get_zget _ _ _ R4). cbn [bind].
  rewrite (py_get_range _ _ 0) by (rewrite Hc; exact Hf). cbn [bind]. rewrite py_set_range by (rewrite Hc; exact Hf). cbn [bind].
  rewrite DM, X1. cbn [bind]. rewrite X2, X3. fold L R. rewrite HN. cbn [of_option bind]. fold levels. rewrite HL2.
  rewrite map_img, vec_img, V1. cbn [bind]. rewrite <- map_img, M1. cbn [bind]. rewrite M2. cbn [bind].
  rewrite nth_error_app2 by lia. replace (k + 1 - length pre)%nat with 1%nat by lia. cbn [nth_error of_option bind]. rewrite M3. cbn [bind].
  rewrite vec_img, V2. cbn [bind]. rewrite (py_get_range _ _ nzero) by (rewrite Hi; exact Hf). cbn [bind]. rewrite py_set_range by (rewrite Hi; exact Hf). cbn [bind fst].
  rewrite (py_get_zget _ _ _ R1). cbn [bind]. rewrite (leaf_ok l Hrl). cbn [bind]. rewrite (py_get_zget _ _ _ R2). cbn [bind]. rewrite (leaf_ok r Hrr). cbn [bind].
  rewrite <- Hp at 1. rewrite upd_app2. f_equal. f_equal. unfold children. cbn [fst snd]. fold L R. rewrite map_app. replace (k + 1)%nat with (S k) by lia.
  destruct l, r; reflexivity.
Qed.

(** The whole of depth [k]. *)
Definition overwritten (cur : Z -> N) (us : list (tree Z N * list Z)) (nx : Z -> N) : Z -> N :=
  fold_left (fun g q i => if existsb (Z.eqb i) (snd q) then improved cur (data rows q) i else g i) us nx.
Lemma level_ok : forall us s k cur nx pend fuel,
  (forall q, In q us -> represents e (fst q) /\ is_split (fst q) = true /\ 0 <= fst (fst (data rows q)) < Z.of_nat nf /\ incl (snd q) all /\ (k = O -> snd q = all)) ->
  shape k cur nx (ms_levels s) -> length (ms_imp s) = nf -> length (ms_cnt s) = nf ->
  exists s', metric_visits sum (length us + fuel) e d metric yt yp s (map (item k) us ++ map (item (S k)) pend) =
             metric_visits sum fuel e d metric yt yp s' (map (item (S k)) (pend ++ concat (map (children rows) us))) /\
    (us <> [] \/ full k cur nx (ms_levels s) -> full k cur (overwritten cur us nx) (ms_levels s')) /\
    ms_imp s' = fold_left credit (map (fun q => (fst (fst (data rows q)), delta cur (data rows q))) us) (ms_imp s) /\
    ms_cnt s' = fold_left count (map (fun q => fst (fst (data rows q))) us) (ms_cnt s).
Proof.
  induction us as [|q us IH]; intros s k cur nx pend fuel H Hs Hi Hc.
  - exists s. cbn [length Nat.add map concat app fold_left overwritten]. rewrite app_nil_r. split; [reflexivity|]. split; [intros [C|C]; [contradiction|exact C]|]. split; reflexivity.
  - destruct (H q (or_introl eq_refl)) as (A1 & A2 & A3 & A4 & A5).
    destruct (visit_ok s k cur nx q A1 A2 (fun f E => eq_ind _ (fun f => 0 <= f < Z.of_nat nf) A3 f E) A4 A5 Hs Hi Hc) as (s1 & V & S1 & I1 & C1).
    destruct (IH s1 k cur _ (pend ++ children rows q) fuel (fun q' Hq' => H q' (or_intror Hq')) (full_shape _ _ _ _ S1)) as (s' & E & S2 & I2 & C2).
    + rewrite I1. unfold credit. rewrite upd_length. exact Hi.
    + rewrite C1. unfold count. rewrite upd_length. exact Hc.
    + exists s'. split; [|split; [|split]].
      * cbn [length Nat.add map app metric_visits]. rewrite V. cbn [bind fst snd]. rewrite <- app_assoc, <- map_app, E. cbn [concat map]. rewrite <- app_assoc. reflexivity.
      * intros _. apply S2. right. exact S1.
      * rewrite I2, I1. reflexivity.
      * rewrite C2, C1. reflexivity.
Qed.

Lemma overwritten_ok cur (goal : Z -> N) i : forall us nx, (forall q, In q us -> In i (snd q) -> improved cur (data rows q) i = goal i) ->
  nx i = goal i \/ (exists q, In q us /\ In i (snd q)) -> overwritten cur us nx i = goal i.
Proof.
  induction us as [|q us IH]; intros nx H C; cbn [overwritten fold_left].
  - destruct C as [C|[q [[] _]]]. exact C.
  - apply IH; [intros q' Hq'; apply H; right; exact Hq'|]. destruct (existsb (Z.eqb i) (snd q)) eqn:E.
    + left. apply H; [left; reflexivity|apply existsb_in, E].
    + destruct C as [C|[q' [[<-|Hq'] Hi]]].
      * left. exact C.
      * apply existsb_in in Hi. congruence.
      * right. exists q'. auto.
Qed.

Variable t : tree Z N.
Hypothesis Hrep : represents e t.
Hypothesis Hsplit : is_split t = true.
Hypothesis Hfeat : Forall (fun f => 0 <= f < Z.of_nat nf) (splits t).
Notation pred := (predicted sum rows t y).

Lemma improved_refined k v i : improved (pred k) v i = refined sum rows t y k v i.
Proof. reflexivity. Qed.

Lemma next_level k i : In i all -> overwritten (pred k) (nodes_at rows k t all) (pred k) i = pred (S k) i.
Proof.
  intros Hi. apply overwritten_ok.
  - intros q Hq Hj. destruct (nodes_sub rows e _ k t all q Hrep Hfeat Hq) as (j & f & thr & l & r & E & _ & _).
    cbn [predicted]. rewrite (nodes_group rows k t all q j f thr l r i Hq E Hj). unfold improved, data. rewrite E. cbn [fst snd].
    destruct (goes_left rows f thr i) eqn:G.
    + assert (X : In i (lefts rows f thr (snd q))) by (apply filter_In; auto). apply existsb_in in X. rewrite X. reflexivity.
    + assert (X : In i (rights rows f thr (snd q))) by (apply filter_In; rewrite G; auto). apply existsb_in in X. rewrite X.
      assert (Y : ~ In i (lefts rows f thr (snd q))) by (intros C; apply filter_In in C; destruct C; congruence). apply existsb_out in Y. rewrite Y. reflexivity.
  - destruct (existsb (fun q => existsb (Z.eqb i) (snd q)) (nodes_at rows k t all)) eqn:E.
    + right. apply existsb_exists in E. destruct E as [q [Hq E]]. exists q. split; [exact Hq|apply existsb_in, E].
    + left. assert (X : forall q, In q (nodes_at rows k t all) -> ~ In i (snd q)).
      { intros q Hq C. apply existsb_in in C. assert (existsb (fun q => existsb (Z.eqb i) (snd q)) (nodes_at rows k t all) = true) by (apply existsb_exists; exists q; auto). congruence. }
      destruct k as [|k].
      * exfalso. destruct t as [|a f thr l r]; [discriminate|]. apply (X (Node a f thr l r, all)); [left; reflexivity|exact Hi].
      * unfold predicted. rewrite (nodes_no_group rows (S k) t all i Hi X). reflexivity.
Qed.

Definition level_changes (k : nat) : list (Z * N) := map (fun v => (fst (fst v), change sum rows value t y p k v)) (splits_at rows k t all).
Definition level_features (k : nat) : list Z := map (fun v => fst (fst v)) (splits_at rows k t all).

Lemma levels_ok : forall h k s fuel, (k + h = height t)%nat -> (length (concat (map level_features (seq k h))) <= fuel)%nat ->
  (exists pre, length pre = k /\ ms_levels s = pre ++ [img n (pred k)]) -> length (ms_imp s) = nf -> length (ms_cnt s) = nf ->
  exists s' pre, metric_visits sum fuel e d metric yt yp s (map (item k) (nodes_at rows k t all)) = Ok s' /\
    ms_levels s' = pre ++ [img n (pred (height t))] /\
    ms_imp s' = fold_left credit (concat (map level_changes (seq k h))) (ms_imp s) /\
    ms_cnt s' = fold_left count (concat (map level_features (seq k h))) (ms_cnt s).
Proof.
  induction h as [|h IH]; intros k s fuel Hk Hfuel [pre [Hp HL]] Hi Hc.
  - assert (E : nodes_at rows k t all = []) by (apply nodes_empty; lia). rewrite E. exists s, pre. cbn [map seq concat fold_left].
    split; [destruct fuel; reflexivity|]. split; [replace (height t) with k by lia; exact HL|]. split; reflexivity.
  - set (us := nodes_at rows k t all) in *.
    assert (HU : us <> []) by (intros C; apply nodes_empty in C; lia).
    cbn [seq map concat] in Hfuel |- *. rewrite app_length in Hfuel.
    assert (LF : length (level_features k) = length us) by (unfold level_features; rewrite splits_at_data, !map_length; reflexivity).
    replace fuel with (length us + (fuel - length us))%nat by lia.
    destruct (level_ok us s k (pred k) (pred k) [] (fuel - length us)) as (s1 & E & S1 & I1 & C1).
    + intros q Hq. destruct (nodes_sub rows e _ k t all q Hrep Hfeat Hq) as (j & f & thr & l & r & E & R1 & Ff).
      split; [exact R1|]. rewrite E. split; [reflexivity|]. split; [unfold data; rewrite E; exact Ff|]. split; [apply (nodes_docs rows k t all q Hq)|].
      intros ->. unfold us in Hq. destruct t; [contradiction|]. destruct Hq as [<-|[]]. reflexivity.
    + exists pre. split; [exact Hp|]. right. split; [exact HL|reflexivity].
    + exact Hi.
    + exact Hc.
    + destruct (S1 (or_introl HU)) as [pre1 [P1 L1]].
      destruct (IH (S k) s1 (fuel - length us)%nat) as (s' & pre' & E' & L' & I' & C').
      * lia.
      * lia.
      * exists (pre1 ++ [img n (pred k)]). split; [rewrite app_length, P1; cbn; lia|]. rewrite L1, <- app_assoc. cbn [app]. do 3 f_equal.
        apply img_ext. intros i Hi'. apply next_level, Hi'.
      * rewrite I1. clear - Hi. revert Hi. generalize (ms_imp s). induction (map _ us) as [|q l IH]; intros imp Hi; [exact Hi|]. cbn [fold_left]. apply IH. unfold credit. rewrite upd_length. exact Hi.
      * rewrite C1. clear - Hc. revert Hc. generalize (ms_cnt s). induction (map _ us) as [|q l IH]; intros imp Hi; [exact Hi|]. cbn [fold_left]. apply IH. unfold count. rewrite upd_length. exact Hi.
      * exists s', pre'. split; [|split; [exact L'|split]].
        -- cbn [map app] in E. rewrite app_nil_r in E. rewrite E. unfold us. rewrite <- nodes_S. exact E'.
        -- rewrite I', I1, fold_left_app. f_equal. f_equal. unfold level_changes. rewrite splits_at_data, map_map. reflexivity.
        -- rewrite C', C1, fold_left_app. f_equal. f_equal. unfold level_features. rewrite splits_at_data, map_map. reflexivity.
Qed.
End Tree.
