(** Proofs about the picture of the average shape. *)
From Coq Require Import List ZArith Reals Bool Lia Permutation.
From Verif Require Import Base Num Lists M_Dataset M_Ensemble S_Ensemble L_Ensemble M_Topology S_Topology L_Topology3 M_PlotShape S_PlotShape.
Import ListNotations.
Local Open Scope Z_scope.

Section Any.
Context {N : Num.num}.

Definition boxed (z : list (list N)) (a b : Z) : Prop := length z = Z.to_nat a /\ Forall (fun r => length r = Z.to_nat b) z.
Lemma upd_len {A} (l : list A) k v : length (upd l k v) = length l.
Proof. revert k. induction l as [|x l IH]; intros [|k]; cbn; auto. Qed.
Lemma nth_upd (r : list N) k j (v d : N) : nth j (upd r k v) d = if (j =? k)%nat && (j <? length r)%nat then v else nth j r d.
Proof.
  revert k j. induction r as [|x r IH]; intros [|k] [|j]; cbn; auto; try (rewrite andb_false_r; reflexivity). rewrite IH. reflexivity.
Qed.
Lemma paint_nth start stop level v (z : list (list N)) i : (i < length z)%nat ->
  nth i (paint start stop level v z) [] = if (start <=? Z.of_nat i) && (Z.of_nat i <? stop) then upd (nth i z []) level v else nth i z [].
Proof.
  intros H. unfold paint. set (f := fun p : nat * list N => if (start <=? Z.of_nat (fst p)) && (Z.of_nat (fst p) <? stop) then upd (snd p) level v else snd p).
  rewrite (nth_indep _ [] (f (0%nat, []))) by (rewrite map_length, combine_length, seq_length, Nat.min_id; exact H). rewrite map_nth, combine_nth by apply seq_length. rewrite seq_nth by exact H. reflexivity.
Qed.
Lemma paint_box start stop level v (z : list (list N)) a b : boxed z a b -> boxed (paint start stop level v z) a b.
Proof.
  intros [H1 H2]. split.
  - unfold paint. rewrite map_length, combine_length, seq_length, Nat.min_id. exact H1.
  - unfold paint. rewrite Forall_forall in *. intros r Hr. apply in_map_iff in Hr. destruct Hr as ([k r'] & <- & Hk). apply in_combine_r in Hk. cbn [fst snd]. destruct (_ && _); rewrite ?upd_len; apply H2, Hk.
Qed.
Lemma paint_colour start stop (level : Z) v (z : list (list N)) a b i l : boxed z a b -> 0 <= i < a -> 0 <= l < b -> 0 <= level ->
  colour (paint start stop (Z.to_nat level) v z) i l = if (l =? level) && (start <=? i) && (i <? stop) then v else colour z i l.
Proof.
  intros [H1 H2] Hi Hl Hv. unfold colour. rewrite paint_nth by lia. rewrite Z2Nat.id by lia.
  assert (HR : length (nth (Z.to_nat i) z []) = Z.to_nat b) by (rewrite Forall_forall in H2; apply H2, nth_In; lia).
  destruct ((start <=? i) && (i <? stop)) eqn:E.
  - rewrite nth_upd, HR. replace (Z.to_nat l =? Z.to_nat level)%nat with (l =? level) by (destruct (Z.eqb_spec l level) as [->|D]; symmetry; [apply Nat.eqb_refl|apply Nat.eqb_neq; lia]).
    rewrite (proj2 (Nat.ltb_lt _ _)) by lia. rewrite andb_true_r, <- andb_assoc, E, andb_true_r. reflexivity.
  - rewrite <- andb_assoc, E, andb_false_r. reflexivity.
Qed.

Variable ts : list (Z * Z * N).
(** One ring. *)
Lemma ring_colour (nodes : list Z) w (level : Z) : forall z a b i l, boxed z a b -> 0 <= i < a -> 0 <= l < b -> 0 <= level -> 0 < w -> NoDup nodes ->
  let z' := fold_left (fun z node => if node <? cols_of ts then paint (w * node) (w * node + w) (Z.to_nat level) (cell_of ts level node) z else z) nodes z in
  boxed z' a b /\ colour z' i l = (if (l =? level) && existsb (fun n => (n =? i / w) && (n <? cols_of ts)) nodes then cell_of ts level (i / w) else colour z i l).
Proof.
  induction nodes as [|n nodes IH]; intros z a b i l HB Hi Hl Hv Hw ND; cbn [fold_left existsb]; cbv zeta.
  - split; [exact HB|]. rewrite andb_false_r. reflexivity.
  - inversion_clear ND. destruct (Z.ltb_spec n (cols_of ts)) as [C|C].
    + destruct (IH (paint (w * n) (w * n + w) (Z.to_nat level) (cell_of ts level n) z) a b i l (paint_box _ _ _ _ _ _ _ HB) Hi Hl Hv Hw H0) as [B1 E1]. split; [exact B1|]. rewrite E1.
      rewrite (paint_colour _ _ level _ z a b i l HB Hi Hl Hv). rewrite andb_true_r.
      assert (EQ : (n =? i / w) = ((w * n <=? i) && (i <? w * n + w))).
      { destruct (Z.eqb_spec n (i / w)) as [->|D]; symmetry.
        - pose proof (Z.mul_div_le i w Hw). pose proof (Z.mod_pos_bound i w Hw). pose proof (Z.div_mod i w ltac:(lia)). rewrite andb_true_iff, Z.leb_le, Z.ltb_lt. lia.
        - rewrite andb_false_iff, Z.leb_gt, Z.ltb_ge. pose proof (Z.mod_pos_bound i w Hw). pose proof (Z.div_mod i w ltac:(lia)).
          destruct (Z.lt_ge_cases n (i / w)) as [G|G]; [right|left]; nia. }
      destruct (Z.eqb_spec l level) as [->|DL]; cbn [andb]; [|reflexivity]. rewrite EQ. destruct (existsb _ nodes); [rewrite orb_true_r; reflexivity|]. rewrite orb_false_r.
      destruct ((w * n <=? i) && (i <? w * n + w)) eqn:E2; [|reflexivity]. apply Z.eqb_eq in EQ. rewrite <- EQ. reflexivity.
    + destruct (IH z a b i l HB Hi Hl Hv Hw H0) as [B1 E1]. split; [exact B1|]. rewrite E1. rewrite andb_false_r. reflexivity.
Qed.
Lemma zrange_nodup a b : NoDup (zrange a b).
Proof. unfold zrange. apply FinFun.Injective_map_NoDup; [intros x y E; lia|apply seq_NoDup]. Qed.
Lemma zrange_in a b x : In x (zrange a b) <-> a <= x < b.
Proof. unfold zrange. rewrite in_map_iff. split; [intros (k & <- & H); apply in_seq in H; lia|intros H; exists (Z.to_nat (x - a)); split; [lia|apply in_seq; lia]]. Qed.
Lemma all_rings (levels : list Z) (m : Z) (ok : forall level, In level levels -> 0 <= level /\ 0 < m / 2 ^ level) : forall z a b i l, boxed z a b -> 0 <= i < a -> 0 <= l < b -> NoDup levels ->
  let z' := fold_left (fun z level => fold_left (fun z node => if node <? cols_of ts then paint (m / 2 ^ level * node) (m / 2 ^ level * node + m / 2 ^ level) (Z.to_nat level) (cell_of ts level node) z else z) (zrange 0 (2 ^ level)) z) levels z in
  boxed z' a b /\ colour z' i l = (if existsb (Z.eqb l) levels && (i / (m / 2 ^ l) <? 2 ^ l) && (i / (m / 2 ^ l) <? cols_of ts) then cell_of ts l (i / (m / 2 ^ l)) else colour z i l).
Proof.
  induction levels as [|v levels IH]; intros z a b i l HB Hi Hl ND; cbn [fold_left existsb]; cbv zeta; [split; [exact HB|reflexivity]|].
  inversion_clear ND. destruct (ok v (or_introl eq_refl)) as [V0 V1].
  destruct (ring_colour (zrange 0 (2 ^ v)) (m / 2 ^ v) v z a b i l HB Hi Hl V0 V1 (zrange_nodup _ _)) as [B1 E1].
  destruct (IH (fun level Hl => ok level (or_intror Hl)) _ a b i l B1 Hi Hl H0) as [B2 E2]. split; [exact B2|]. rewrite E2, E1. clear E2 E1 B2 B1 IH.
  assert (EX : existsb (fun n => (n =? i / (m / 2 ^ v)) && (n <? cols_of ts)) (zrange 0 (2 ^ v)) = (i / (m / 2 ^ v) <? 2 ^ v) && (i / (m / 2 ^ v) <? cols_of ts)).
  { destruct (existsb _ _) eqn:E; symmetry.
    - apply existsb_exists in E. destruct E as (n & Hn & E). apply zrange_in in Hn. apply andb_true_iff in E. destruct E as [E3 E4]. apply Z.eqb_eq in E3. subst n. rewrite E4, andb_true_r. apply Z.ltb_lt. lia.
    - apply not_true_iff_false. intros C. apply andb_true_iff in C. destruct C as [C1 C2]. apply not_true_iff_false in E. apply E. apply existsb_exists. exists (i / (m / 2 ^ v)). split; [|rewrite Z.eqb_refl; exact C2].
      apply zrange_in. apply Z.ltb_lt in C1. split; [apply Z.div_pos; lia|exact C1]. }
  rewrite EX. destruct (Z.eqb_spec l v) as [->|D]; cbn [orb andb]; [|reflexivity].
  destruct (existsb (Z.eqb v) levels) eqn:E; [apply existsb_exists in E; destruct E as (v' & Hv & E); apply Z.eqb_eq in E; subst v'; contradiction|]. cbn [andb]. reflexivity.
Qed.

Lemma power_split L l : 0 <= l <= L -> shape_nodes L = shape_nodes L / 2 ^ l * 2 ^ l /\ 0 < shape_nodes L / 2 ^ l.
Proof.
  intros H. assert (G : forall k, l <= k -> 2 ^ k = 2 ^ k / 2 ^ l * 2 ^ l /\ 0 < 2 ^ k / 2 ^ l).
  { intros k Hk. assert (E : 2 ^ k / 2 ^ l = 2 ^ (k - l)) by (rewrite Z.pow_sub_r by lia; reflexivity). rewrite E. split; [rewrite <- Z.pow_add_r by lia; f_equal; lia|apply Z.pow_pos_nonneg; lia]. }
  unfold shape_nodes. change 128 with (2 ^ 7). destruct (Z.le_gt_cases L 7) as [C|C].
  - rewrite Z.max_l by (apply Z.pow_le_mono_r; lia). apply G. lia.
  - rewrite Z.max_r by (apply Z.pow_le_mono_r; lia). apply G. lia.
Qed.
Lemma in_arc_div M k w c i : M = w * k -> 0 < w -> 0 < k -> in_arc M k c i <-> c = i / w.
Proof.
  intros -> Hw Hk. unfold in_arc. split.
  - intros [A B]. apply (Z.div_unique i w c (i - w * c)); [|ring]. left. nia.
  - intros ->. pose proof (Z.mod_pos_bound i w Hw). pose proof (Z.div_mod i w ltac:(lia)). split; nia.
Qed.

Lemma plot_any max_level : 0 <= max_level ->
  let levels := shape_levels ts max_level in let m := shape_nodes levels in
  boxed (plot_shape ts max_level) (m + 1) (levels + 1) /\
  forall l c i, 0 <= l < levels -> 0 <= c < 2 ^ l -> 0 <= i < m -> in_arc m (2 ^ l) c i -> colour (plot_shape ts max_level) i l = if c <? cols_of ts then cell_of ts l c else nzero.
Proof.
  intros HM levels m. assert (R0 : 0 <= rows_of ts).
  { unfold rows_of. assert (G : forall l x, x <= fold_left Z.max l x) by (induction l as [|y l IH]; intros x; cbn; [lia|]; specialize (IH (Z.max x y)); lia). pose proof (G (map (fun p => fst (fst p)) ts) (-1)). lia. }
  assert (L0 : 0 <= levels) by (unfold levels, shape_levels; lia).
  assert (M0 : 0 < m) by (unfold m, shape_nodes; lia).
  assert (OK : forall level, In level (zrange 0 levels) -> 0 <= level /\ 0 < m / 2 ^ level) by (intros v Hv; apply zrange_in in Hv; split; [lia|apply (power_split levels v); lia]).
  assert (B0 : boxed (repeat (repeat (nzero (n:=N)) (Z.to_nat (levels + 1))) (Z.to_nat (m + 1))) (m + 1) (levels + 1)).
  { split; [apply repeat_length|]. apply Forall_forall. intros r Hr. apply repeat_spec in Hr. subst r. apply repeat_length. }
  split.
  - exact (proj1 (all_rings (zrange 0 levels) m OK _ (m + 1) (levels + 1) 0 0 B0 ltac:(lia) ltac:(lia) (zrange_nodup _ _))).
  - intros l c i Hl Hc Hi HA. pose proof (proj2 (all_rings (zrange 0 levels) m OK _ (m + 1) (levels + 1) i l B0 ltac:(lia) ltac:(lia) (zrange_nodup _ _))) as E.
    change (fold_left _ (zrange 0 levels) _) with (plot_shape ts max_level) in E. rewrite E. destruct (power_split levels l ltac:(lia)) as [P1 P2]. fold m in P1, P2.
    apply (in_arc_div m (2 ^ l) (m / 2 ^ l) c i P1 P2 ltac:(lia)) in HA. rewrite <- HA.
    replace (existsb (Z.eqb l) (zrange 0 levels)) with true by (symmetry; apply existsb_exists; exists l; split; [apply zrange_in; lia|apply Z.eqb_refl]). rewrite (proj2 (Z.ltb_lt c (2 ^ l))) by lia. cbn [andb].
    destruct (c <? cols_of ts); [reflexivity|]. unfold colour.
    rewrite (nth_indep _ [] (repeat (nzero (n:=N)) (Z.to_nat (levels + 1)))) by (rewrite repeat_length; lia). rewrite nth_repeat. apply nth_repeat.
Qed.
End Any.

Lemma max_ge l : forall x, x <= fold_left Z.max l x /\ forall y, In y l -> y <= fold_left Z.max l x.
Proof.
  induction l as [|y l IH]; intros x; cbn [fold_left]; [split; [lia|intros ? []]|]. destruct (IH (Z.max x y)) as [A B]. split; [lia|]. intros z [<-|Hz]; [lia|apply B, Hz].
Qed.
Lemma cell_of_in {N : Num.num} (ts : list (Z * Z * N)) l c x : NoDup (map fst ts) -> In ((l, c), x) ts -> cell_of ts l c = x.
Proof.
  unfold cell_of. induction ts as [|[[a b] v] ts IH]; intros ND H; [destruct H|]. cbn [find fst snd map] in *. inversion_clear ND. destruct ((a =? l) && (b =? c)) eqn:E.
  - apply andb_true_iff in E. destruct E as [E1 E2]. apply Z.eqb_eq in E1, E2. subst a b. cbn [snd]. destruct H as [H|H]; [injection H; auto|]. exfalso. apply H0. apply in_map_iff. exists ((l, c), x). auto.
  - destruct H as [H|H]; [injection H as -> -> ->; rewrite !Z.eqb_refl in E; discriminate|]. apply IH; assumption.
Qed.
Lemma cell_of_none {N : Num.num} (ts : list (Z * Z * N)) l c : (forall x, ~ In ((l, c), x) ts) -> cell_of ts l c = nzero.
Proof.
  intros H. unfold cell_of. destruct (find _ ts) as [[[a b] v]|] eqn:E; [|reflexivity]. apply find_some in E. destruct E as [E1 E2]. cbn [fst snd] in E2. apply andb_true_iff in E2. destruct E2 as [E2 E3]. apply Z.eqb_eq in E2, E3. subst. exfalso. exact (H v E1).
Qed.

Lemma plot_shape_lemma incl (e : ensemble RE) trees ws order max_level :
  laid_out e trees ws -> Forall parents_first trees -> Forall (fun t => (height t <= 63)%nat) trees -> trees <> [] ->
  Permutation order (zrange 0 (e_ntrees e)) -> 0 <= max_level ->
  exists m hs, topology incl e order = Ok (m, hs) /\
    let z := plot_shape (avg_tree_shape e m) max_level in
    exists levels sectors, 1 <= levels <= max_level + 1 /\ 128 <= sectors /\ 2 ^ levels <= sectors /\
      length z = Z.to_nat (sectors + 1) /\ Forall (fun r => length r = Z.to_nat (levels + 1)) z /\
      (forall l c t, 0 <= l <= max_level -> 0 <= c < 2 ^ l -> In t trees -> counted incl (Z.to_nat l) c t = true -> l < levels) /\
      (forall l i, 0 <= l < levels -> 0 <= i < sectors -> exists c, 0 <= c < 2 ^ l /\ in_arc sectors (2 ^ l) c i) /\
      (forall l c i, 0 <= l < levels -> 0 <= c < 2 ^ l -> 0 <= i < sectors -> in_arc sectors (2 ^ l) c i ->
        colour z i l = (IZR (how_many (counted incl (Z.to_nat l) c) trees) / INR (length trees))%R).
Proof.
  intros HL HP HH HN HO HM. destruct (avg_lemma incl e trees ws order HL HP HH HN HO) as (m & hs & E & ND & HI). exists m, hs. split; [exact E|].
  set (ts := avg_tree_shape e m) in *. cbv zeta.
  assert (RW : forall l c t, 0 <= l -> 0 <= c < 2 ^ l -> In t trees -> counted incl (Z.to_nat l) c t = true -> l < rows_of ts).
  { intros l c t Hl Hc Ht Hk. assert (G : In ((Z.of_nat (Z.to_nat l), c), (IZR (how_many (counted incl (Z.to_nat l) c) trees) / INR (length trees))%R) ts).
    { apply HI. rewrite Z2Nat.id by lia. split; [exact Hc|]. split; [|reflexivity]. unfold how_many. assert (In t (filter (counted incl (Z.to_nat l) c) trees)) by (apply filter_In; auto). destruct (filter _ trees); [contradiction|cbn [length]; lia]. }
    rewrite Z2Nat.id in G by lia. unfold rows_of. pose proof (proj2 (max_ge (map (fun p => fst (fst p)) ts) (-1)) l) as B. specialize (B ltac:(apply in_map_iff; exists ((l, c), (IZR (how_many (counted incl (Z.to_nat l) c) trees) / INR (length trees))%R); split; [reflexivity|exact G])). lia. }
  assert (R1 : 1 <= rows_of ts).
  { destruct trees as [|t trees]; [contradiction|]. assert (0 < rows_of ts); [|lia]. apply (RW 0 0 t); try lia; [left; reflexivity|]. unfold counted. destruct incl; reflexivity. }
  pose proof (plot_any ts max_level HM) as [[B1 B2] PC]. set (levels := shape_levels ts max_level) in *. set (sectors := shape_nodes levels) in *.
  assert (LV : 1 <= levels <= max_level + 1) by (unfold levels, shape_levels; lia).
  exists levels, sectors. split; [exact LV|]. split; [unfold sectors, shape_nodes; lia|]. split; [unfold sectors, shape_nodes; lia|]. split; [exact B1|]. split; [exact B2|]. split; [|split].
  - intros l c t Hl Hc Ht Hk. specialize (RW l c t ltac:(lia) Hc Ht Hk). unfold levels, shape_levels. lia.
  - intros l i Hl Hi. destruct (power_split levels l ltac:(lia)) as [P1 P2]. fold sectors in P1, P2. exists (i / (sectors / 2 ^ l)). split.
    + split; [apply Z.div_pos; lia|]. apply Z.div_lt_upper_bound; [exact P2|]. apply Z.lt_le_trans with sectors; [lia|]. apply Z.eq_le_incl. exact P1.
    + apply (in_arc_div sectors (2 ^ l) (sectors / 2 ^ l)); [exact P1|exact P2|apply Z.pow_pos_nonneg; lia|reflexivity].
  - intros l c i Hl Hc Hi HA. rewrite (PC l c i Hl Hc Hi HA).
    assert (V : cell_of (N:=RE) ts l c = (IZR (how_many (counted incl (Z.to_nat l) c) trees) / INR (length trees))%R).
    { destruct (Z.le_gt_cases (how_many (counted incl (Z.to_nat l) c) trees) 0) as [C|C].
      - assert (C0 : how_many (counted incl (Z.to_nat l) c) trees = 0) by (unfold how_many in *; lia). rewrite (cell_of_none (N:=RE)).
        + rewrite C0. unfold Rdiv. rewrite Rmult_0_l. reflexivity.
        + intros x Hx. rewrite <- (Z2Nat.id l) in Hx at 1 by lia. apply HI in Hx. lia.
      - apply cell_of_in; [exact ND|]. rewrite <- (Z2Nat.id l) at 1 by lia. apply HI. rewrite Z2Nat.id by lia. auto. }
    destruct (Z.ltb_spec c (cols_of ts)) as [C|C]; [exact V|]. rewrite <- V. symmetry. apply cell_of_none. intros x Hx.
    pose proof (proj2 (max_ge (map (fun p => snd (fst p)) ts) (-1)) c) as B. unfold cols_of in C. specialize (B ltac:(apply in_map_iff; exists ((l, c), x); split; [reflexivity|exact Hx])). change (car RE) with R in *. lia.
Qed.
