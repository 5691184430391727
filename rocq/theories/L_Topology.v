(** Proofs about the topological analysis. *)
From Coq Require Import List ZArith Bool Lia Permutation Arith.
From Verif Require Import Base Num Lists M_Dataset M_Ensemble S_Ensemble L_Ensemble L_Loaders M_Topology S_Topology.
Import ListNotations.
Local Open Scope Z_scope.

(** ** most_significant_bit *)
Lemma land_high : forall v S b, 0 <= S -> 0 <= v < 2 ^ (2 * S) ->
  (forall i, S <= i < 2 * S -> Z.testbit b i = true) -> (forall i, 0 <= i < S -> Z.testbit b i = false) ->
  (Z.land v b = 0 <-> v < 2 ^ S).
Proof.
  intros v S b HS Hv Hb1 Hb0. split; intro H.
  - destruct (Z.lt_ge_cases v (2 ^ S)) as [|Hge]; [assumption|exfalso].
    assert (Hl : S <= Z.log2 v) by (apply Z.log2_le_pow2; lia).
    assert (Hp : 0 < 2 ^ S) by (apply Z.pow_pos_nonneg; lia).
    assert (Hu : Z.log2 v < 2 * S) by (apply Z.log2_lt_pow2; lia).
    assert (T : Z.testbit (Z.land v b) (Z.log2 v) = true).
    { rewrite Z.land_spec, Z.bit_log2, Hb1 by lia. reflexivity. }
    rewrite H, Z.bits_0 in T. discriminate.
  - apply Z.bits_inj'. intros i Hi. rewrite Z.land_spec, Z.bits_0.
    destruct (Z.lt_ge_cases i S) as [Hlt|Hge]; [rewrite Hb0 by lia; apply andb_false_r|].
    destruct (Z.eq_dec v 0) as [->|Hne]; [rewrite Z.bits_0; reflexivity|].
    rewrite (Z.bits_above_log2 v i); [reflexivity|lia|].
    apply Z.lt_le_trans with S; [apply Z.log2_lt_pow2; lia|lia].
Qed.

Lemma msb_step_spec : forall v r S b, 0 < S -> 1 <= v < 2 ^ (2 * S) ->
  (forall i, S <= i < 2 * S -> Z.testbit b i = true) -> (forall i, 0 <= i < S -> Z.testbit b i = false) ->
  exists v', 1 <= v' < 2 ^ S /\
    ((msb_step (v, r) (b, S) = (v', r) /\ Z.log2 v = Z.log2 v') \/
     (msb_step (v, r) (b, S) = (v', Z.lor r S) /\ Z.log2 v = S + Z.log2 v')).
Proof.
  intros v r S b HS Hv Hb1 Hb0. unfold msb_step. cbn [fst snd].
  pose proof (land_high v S b ltac:(lia) ltac:(lia) Hb1 Hb0) as H.
  assert (Hp : 0 < 2 ^ S) by (apply Z.pow_pos_nonneg; lia).
  destruct (Z.land v b =? 0) eqn:E.
  - apply Z.eqb_eq in E. exists v. split; [apply H in E; lia|]. left. auto.
  - apply Z.eqb_neq in E. assert (Hge : 2 ^ S <= v) by (destruct (Z.lt_ge_cases v (2 ^ S)); [tauto|lia]).
    exists (Z.shiftr v S). split.
    + rewrite Z.shiftr_div_pow2 by lia. split.
      * apply Z.div_le_lower_bound; lia.
      * apply Z.div_lt_upper_bound; [lia|]. rewrite <- Z.pow_add_r by lia. replace (S + S) with (2 * S) by lia. lia.
    + right. split; [reflexivity|]. rewrite Z.log2_shiftr by lia.
      assert (S <= Z.log2 v) by (apply Z.log2_le_pow2; lia). lia.
Qed.

Lemma forall_bits : forall (p : Z -> bool) a n, forallb p (zrange a n) = true -> forall i, a <= i < n -> p i = true.
Proof. intros p a n H i Hi. rewrite forallb_forall in H. apply H. apply in_zrange. exact Hi. Qed.

Ltac masks :=
  let i := fresh in let H := fresh in
  intros i H;
  first [ refine (forall_bits (fun i => Z.testbit _ i) _ _ _ i H); vm_compute; reflexivity
        | apply negb_true_iff; refine (forall_bits (fun i => negb (Z.testbit _ i)) _ _ _ i H); vm_compute; reflexivity ].

Ltac msb_one :=
  match goal with H : 1 <= ?v < _ |- context [msb_step (?v, ?r) (?b, ?S)] =>
    let w := fresh "v" in let H' := fresh "H" in let E := fresh in let L := fresh in
    destruct (msb_step_spec v r S b ltac:(lia) ltac:(lia) ltac:(masks) ltac:(masks)) as [w [H' [[E L]|[E L]]]];
    rewrite E, L; clear E L H
  end.

Lemma msb_log2 : forall v, 1 <= v < 2 ^ 63 -> msb v = Z.log2 v.
Proof.
  intros v Hv. unfold msb.
  assert (E : i64 v = v).
  { unfold i64, wrap_s. assert (P : 2 ^ 64 = 2 * 2 ^ 63) by reflexivity.
    change (64 - 1) with 63. rewrite (Z.mod_small v) by lia. destruct (Z.ltb_spec v (2 ^ 63)); lia. }
  rewrite E. clear E. unfold msb_tests. cbn [fold_left].
  assert (P64 : 1 <= v < 2 ^ (2 * 32)) by (split; [lia|]; apply Z.lt_trans with (2 ^ 63); [lia|reflexivity]).
  clear Hv.
  msb_one; msb_one; msb_one; msb_one; msb_one; msb_one;
    match goal with H : 1 <= ?v < 2 ^ 1 |- _ => replace v with 1 by lia end; reflexivity.
Qed.

(** Read as a signed number, a value of 64 bits with the top bit set still gives 63. *)
Lemma top_bit : forall w n, 0 <= n -> - 2 ^ n <= w < 0 -> Z.testbit w n = true.
Proof.
  intros w n Hn H. apply Z.testbit_true; [exact Hn|].
  assert (Hp : 0 < 2 ^ n) by (apply Z.pow_pos_nonneg; lia).
  replace (w / 2 ^ n) with (-1); [reflexivity|].
  apply (Z.div_unique w (2 ^ n) (-1) (w + 2 ^ n)); lia.
Qed.
Lemma msb_step_neg : forall w r S b n, 0 <= n -> 0 < S <= n + 1 -> - 2 ^ n <= w < 0 -> Z.testbit b n = true ->
  exists w', msb_step (w, r) (b, S) = (w', Z.lor r S) /\ - 2 ^ (n - S + (if S =? n + 1 then 1 else 0)) <= w' < 0.
Proof.
  intros w r S b n Hn HS Hw Hb. unfold msb_step. cbn [fst snd].
  assert (E : Z.land w b =? 0 = false).
  { apply Z.eqb_neq. intro E. assert (T : Z.testbit (Z.land w b) n = true) by (rewrite Z.land_spec, top_bit, Hb by lia; reflexivity).
    rewrite E, Z.bits_0 in T. discriminate. }
  rewrite E. exists (Z.shiftr w S). split; [reflexivity|]. rewrite Z.shiftr_div_pow2 by lia.
  assert (Hp : 0 < 2 ^ S) by (apply Z.pow_pos_nonneg; lia).
  split; [|apply Z.div_lt_upper_bound; lia].
  apply Z.div_le_lower_bound; [exact Hp|].
  destruct (Z.eqb_spec S (n + 1)) as [->|HS'].
  - replace (n - (n + 1) + 1) with 0 by lia. rewrite Z.pow_0_r, Z.pow_add_r by lia. lia.
  - rewrite Z.add_0_r. assert (P : 2 ^ S * 2 ^ (n - S) = 2 ^ n) by (rewrite <- Z.pow_add_r by lia; f_equal; lia). lia.
Qed.
Ltac msb_neg_one n :=
  match goal with H : - 2 ^ _ <= ?v < 0 |- context [msb_step (?v, ?r) (?b, ?S)] =>
    let w := fresh "v" in let H' := fresh "H" in let E := fresh in
    destruct (msb_step_neg v r S b n ltac:(lia) ltac:(lia) ltac:(lia) eq_refl) as [w [E H']];
    rewrite E; clear E H; cbn in H'
  end.
Lemma msb_top : forall v, 2 ^ 63 <= v < 2 ^ 64 -> msb v = 63.
Proof.
  intros v Hv. unfold msb.
  assert (E : - 2 ^ 63 <= i64 v < 0).
  { unfold i64, wrap_s. assert (P : 2 ^ 64 = 2 * 2 ^ 63) by reflexivity.
    change (64 - 1) with 63. rewrite (Z.mod_small v) by lia. destruct (Z.ltb_spec v (2 ^ 63)); lia. }
  generalize dependent (i64 v). clear Hv v. intros v H. unfold msb_tests. cbn [fold_left].
  msb_neg_one 63. change (- 2147483648) with (- 2 ^ 31) in *.
  msb_neg_one 31. change (- 32768) with (- 2 ^ 15) in *.
  msb_neg_one 15. change (- 128) with (- 2 ^ 7) in *.
  msb_neg_one 7. change (- 8) with (- 2 ^ 3) in *.
  msb_neg_one 3. change (- 2) with (- 2 ^ 1) in *.
  msb_neg_one 1. reflexivity.
Qed.
Lemma msb_u64 : forall v, 1 <= v < 2 ^ 64 -> msb v = Z.log2 v.
Proof.
  intros v Hv. destruct (Z.lt_ge_cases v (2 ^ 63)); [apply msb_log2; lia|].
  rewrite msb_top by lia. symmetry. apply Z.log2_unique; [lia|]. change (2 ^ Z.succ 63) with (2 ^ 64). lia.
Qed.

(** ** Numbering the nodes of one tree *)
Lemma foldM_zrange_inv {S} (f : S -> Z -> res S) (P : Z -> S -> Prop) b :
  forall n a s, n = Z.to_nat (b - a) -> a <= b -> P a s ->
  (forall k s, a <= k < b -> P k s -> exists s', f s k = Ok s' /\ P (k + 1) s') ->
  exists s', foldM f (zrange a b) s = Ok s' /\ P b s'.
Proof.
  induction n as [|n IH]; intros a s Hn Hab Ha Hstep.
  - assert (a = b) by lia. subst b. unfold zrange. rewrite <- Hn. exists s. split; [reflexivity|exact Ha].
  - rewrite zrange_cons by lia. destruct (Hstep a s ltac:(lia) Ha) as [s1 [E1 H1]].
    destruct (IH (a + 1) s1 ltac:(lia) ltac:(lia) H1) as [s2 [E2 H2]].
    { intros k s0 Hk. apply Hstep. lia. }
    exists s2. split; [cbn [foldM]; rewrite E1; exact E2|exact H2].
Qed.

Section Number.
Context {N : num} (incl : bool).
Implicit Type t : tree Z N.

Fixpoint heaps (g : Z) t : list Z :=
  match t with
  | Leaf _ _ => [if incl then g else 0]
  | Node _ _ _ l r => g :: heaps (2 * g + 1) l ++ heaps (2 * g + 2) r
  end.
Fixpoint maxheap (g : Z) t : Z :=
  match t with Leaf _ _ => g | Node _ _ _ l r => Z.max (maxheap (2 * g + 1) l) (maxheap (2 * g + 2) r) end.

Lemma maxheap_ge g t : 0 <= g -> g <= maxheap g t.
Proof.
  revert g. induction t as [i v|i f thr l IHl r IHr]; intros g Hg; cbn [maxheap]; [lia|].
  pose proof (IHl (2 * g + 1) ltac:(lia)). lia.
Qed.
Lemma maxheap_bounds g t : 0 <= g ->
  2 ^ Z.of_nat (height t) * (g + 1) <= maxheap g t + 1 /\ maxheap g t + 2 <= 2 ^ Z.of_nat (height t) * (g + 2).
Proof.
  revert g. induction t as [i v|i f thr l IHl r IHr]; intros g Hg; cbn [maxheap height]; [lia|].
  destruct (IHl (2 * g + 1) ltac:(lia)) as [L1 L2]. destruct (IHr (2 * g + 2) ltac:(lia)) as [R1 R2].
  replace (Z.of_nat (1 + Nat.max (height l) (height r))) with (1 + Z.of_nat (Nat.max (height l) (height r))) by lia.
  rewrite Z.pow_add_r by lia. change (2 ^ 1) with 2.
  set (hl := height l) in *. set (hr := height r) in *.
  assert (M : forall a b, (a <= b)%nat -> 2 ^ Z.of_nat a <= 2 ^ Z.of_nat b) by (intros; apply Z.pow_le_mono_r; lia).
  assert (Pl : 0 < 2 ^ Z.of_nat hl) by (apply Z.pow_pos_nonneg; lia).
  assert (Pr : 0 < 2 ^ Z.of_nat hr) by (apply Z.pow_pos_nonneg; lia).
  destruct (Nat.le_ge_cases hl hr) as [H|H].
  - rewrite Nat.max_r by exact H. pose proof (M _ _ H). split; [nia|]. apply Z.max_case_strong; intros; nia.
  - rewrite Nat.max_l by exact H. pose proof (M _ _ H). split; [nia|]. apply Z.max_case_strong; intros; nia.
Qed.

Fixpoint Inv (k : Z) (mem : list Z) (mx g : Z) t : Prop :=
  match t with
  | Leaf i _ => zget mem i = Some (if (i <? k) && negb incl then 0 else g)
  | Node i _ _ l r => zget mem i = Some g /\
      (i < k -> 2 * g + 2 <= mx /\ Inv k mem mx (2 * g + 1) l /\ Inv k mem mx (2 * g + 2) r)
  end.

Lemma inv_top k mem mx g t : k <= mark t -> zget mem (mark t) = Some g -> Inv k mem mx g t.
Proof.
  destruct t as [i v|i f thr l r]; cbn [mark Inv]; intros Hk H.
  - destruct (Z.ltb_spec i k); [lia|]. exact H.
  - split; [exact H|lia].
Qed.
Lemma inv_frame k mem mem' mx mx' g t : mx <= mx' -> ~ In k (marks t) ->
  (forall j, In j (marks t) -> zget mem' j = zget mem j) -> Inv k mem mx g t -> Inv (k + 1) mem' mx' g t.
Proof.
  intros Hmx. revert g. induction t as [i v|i f thr l IHl r IHr]; cbn [marks Inv]; intros g Hk Hj H.
  - rewrite Hj, H by (left; reflexivity). assert (i <> k) by (intro E; apply Hk; left; exact E).
    destruct (Z.ltb_spec i k), (Z.ltb_spec i (k + 1)); try lia; reflexivity.
  - destruct H as [H1 H2]. assert (i <> k) by (intro E; apply Hk; left; exact E).
    split; [rewrite Hj by (left; reflexivity); exact H1|]. intro Hi. destruct (H2 ltac:(lia)) as [M [L R]].
    split; [lia|]. split; [apply IHl|apply IHr]; auto.
    + intro C. apply Hk. right. apply in_or_app. left. exact C.
    + intros j Hin. apply Hj. right. apply in_or_app. left. exact Hin.
    + intro C. apply Hk. right. apply in_or_app. right. exact C.
    + intros j Hin. apply Hj. right. apply in_or_app. right. exact Hin.
Qed.
Lemma below_root t : parents_first t -> forall j, In j (marks t) -> mark t <= j.
Proof.
  induction t as [i v|i f thr l IHl r IHr]; cbn [marks mark parents_first]; intros H j Hj.
  - destruct Hj as [<-|[]]. lia.
  - destruct H as [H1 [H2 [H3 H4]]]. destruct Hj as [<-|Hj]; [lia|]. apply in_app_or in Hj.
    destruct Hj as [Hj|Hj]; [specialize (IHl H3 j Hj)|specialize (IHr H4 j Hj)]; lia.
Qed.

Lemma mem_set_zget {A} (l : list A) i v : 0 <= i < Z.of_nat (length l) ->
  exists l', mem_set l i v = Ok l' /\ length l' = length l /\ forall j, zget l' j = if i =? j then Some v else zget l j.
Proof.
  intros H. exists (upd l (Z.to_nat i) v). unfold mem_set. destruct (Z.ltb_spec i 0), (Z.leb_spec (Z.of_nat (length l)) i); try lia.
  cbn [orb]. split; [reflexivity|]. split; [apply upd_length|]. intro j. apply zget_upd. exact H.
Qed.

Lemma u64_small v : 0 <= v < 2 ^ 64 -> u64 v = v.
Proof. intros H. unfold u64, wrap_u. apply Z.mod_small. exact H. Qed.

Lemma step_ok (e : ensemble N) t : represents e t -> parents_first t -> NoDup (marks t) ->
  forall k mem mx g, 0 <= g -> maxheap g t < 2 ^ 64 -> In k (marks t) ->
  (forall j, In j (marks t) -> 0 <= j < Z.of_nat (length mem)) -> Inv k mem mx g t ->
  exists mem' mx', index_step incl e (mem, mx) k = Ok (mem', mx') /\ Inv (k + 1) mem' mx' g t /\
    (forall j, ~ In j (marks t) -> zget mem' j = zget mem j) /\ length mem' = length mem /\
    mx <= mx' <= Z.max mx (maxheap g t).
Proof.
  induction t as [i v|i f thr l IHl r IHr]; cbn [marks parents_first represents Inv];
    intros Hrep Hpf Hnd k mem mx g Hg Hmax Hk Hb HI.
  - destruct Hk as [<-|[]]. destruct Hrep as [R1 [R2 _]]. unfold index_step, leaf_cell.
    rewrite (mem_get_zget _ _ _ R1). cbn [bind]. rewrite (mem_get_zget _ _ _ R2). cbn [bind]. change (negb (-1 =? -1)) with false.
    cbn iota. change (-1 =? -1) with true. cbn iota.
    rewrite Z.ltb_irrefl in HI. cbn [andb] in HI. destruct (Z.ltb_spec i (i + 1)); [|lia]. cbn [andb].
    destruct incl; cbn [negb].
    + exists mem, mx. repeat split; auto; lia.
    + destruct (mem_set_zget mem i 0 (Hb i (or_introl eq_refl))) as [m1 [E1 [L1 G1]]]. rewrite E1. cbn [bind].
      exists m1, mx. split; [reflexivity|]. split; [rewrite G1, Z.eqb_refl; reflexivity|]. split.
      * intros j Hj. rewrite G1. destruct (Z.eqb_spec i j) as [->|]; [exfalso; apply Hj; left; reflexivity|reflexivity].
      * split; [exact L1|lia].
  - destruct Hrep as [R1 [R2 [_ [_ [RL RR]]]]]. destruct Hpf as [P1 [P2 [P3 P4]]]. destruct HI as [I1 I2].
    inversion Hnd as [|? ? Hni Hnd2]; subst. apply NoDup_app_inv in Hnd2. destruct Hnd2 as [NDl [NDr Hdis]].
    cbn [maxheap] in Hmax.
    assert (Bl : 0 <= mark l < Z.of_nat (length mem)) by (apply Hb; right; apply in_or_app; left; apply mark_in_marks).
    assert (Br : 0 <= mark r < Z.of_nat (length mem)) by (apply Hb; right; apply in_or_app; right; apply mark_in_marks).
    destruct Hk as [<-|Hk].
    + unfold index_step, leaf_cell. rewrite (mem_get_zget _ _ _ R1). cbn [bind].
      destruct (Z.eqb_spec (mark l) (-1)); [lia|]. cbn [negb].
      rewrite (mem_get_zget _ _ _ I1). cbn [bind].
      pose proof (maxheap_ge (2 * g + 1) l ltac:(lia)). pose proof (maxheap_ge (2 * g + 2) r ltac:(lia)).
      rewrite !u64_small by lia.
      destruct (mem_set_zget mem (mark l) (2 * g + 1) Bl) as [m1 [E1 [L1 G1]]]. rewrite E1. cbn [bind].
      rewrite (mem_get_zget _ _ _ R2). cbn [bind]. rewrite <- L1 in Br.
      destruct (mem_set_zget m1 (mark r) (2 * g + 2) Br) as [m2 [E2 [L2 G2]]]. rewrite E2. cbn [bind].
      exists m2, (Z.max (Z.max mx (2 * g + 1)) (2 * g + 2)). split; [reflexivity|].
      assert (Nlr : mark l <> mark r).
      { intro E. apply (Hdis (mark l)); [apply mark_in_marks|rewrite E; apply mark_in_marks]. }
      split; [|split; [|split; [congruence|cbn [maxheap]; lia]]].
      * split.
        { rewrite G2, G1. destruct (Z.eqb_spec (mark r) i); [lia|]. destruct (Z.eqb_spec (mark l) i); [lia|]. exact I1. }
        intros _. split; [lia|]. split; apply inv_top; try lia.
        { rewrite G2, G1, Z.eqb_refl. destruct (Z.eqb_spec (mark r) (mark l)); [congruence|reflexivity]. }
        { rewrite G2, Z.eqb_refl. reflexivity. }
      * intros j Hj. rewrite G2, G1.
        destruct (Z.eqb_spec (mark r) j) as [<-|]; [exfalso; apply Hj; right; apply in_or_app; right; apply mark_in_marks|].
        destruct (Z.eqb_spec (mark l) j) as [<-|]; [exfalso; apply Hj; right; apply in_or_app; left; apply mark_in_marks|]. reflexivity.
    + apply in_app_or in Hk. destruct Hk as [Hk|Hk].
      * pose proof (below_root l P3 k Hk). destruct (I2 ltac:(lia)) as [M [IL IR]].
        destruct (IHl RL P3 NDl k mem mx (2 * g + 1) ltac:(lia) ltac:(lia) Hk
                    ltac:(intros; apply Hb; right; apply in_or_app; left; assumption) IL) as [m' [x' [E [HI' [F [L B]]]]]].
        exists m', x'. split; [exact E|]. split; [|split; [|split; [exact L|cbn [maxheap]; lia]]].
        { split.
          - rewrite F; [exact I1|]. intro C. apply Hni. apply in_or_app. left. exact C.
          - intros _. split; [lia|]. split; [exact HI'|]. apply (inv_frame k mem m' mx x'); [lia| | |assumption].
            + intro C. exact (Hdis k Hk C).
            + intros j Hj. apply F. intro C. exact (Hdis j C Hj). }
        { intros j Hj. apply F. intro C. apply Hj. right. apply in_or_app. left. exact C. }
      * pose proof (below_root r P4 k Hk). destruct (I2 ltac:(lia)) as [M [IL IR]].
        destruct (IHr RR P4 NDr k mem mx (2 * g + 2) ltac:(lia) ltac:(lia) Hk
                    ltac:(intros; apply Hb; right; apply in_or_app; right; assumption) IR) as [m' [x' [E [HI' [F [L B]]]]]].
        exists m', x'. split; [exact E|]. split; [|split; [|split; [exact L|cbn [maxheap]; lia]]].
        { split.
          - rewrite F; [exact I1|]. intro C. apply Hni. apply in_or_app. right. exact C.
          - intros _. split; [lia|]. split; [|exact HI']. apply (inv_frame k mem m' mx x'); [lia| | |assumption].
            + intro C. exact (Hdis k C Hk).
            + intros j Hj. apply F. intro C. exact (Hdis j Hj C). }
        { intros j Hj. apply F. intro C. apply Hj. right. apply in_or_app. right. exact C. }
Qed.

Lemma inv_end k mem mx g t : (forall j, In j (marks t) -> j < k) -> Inv k mem mx g t ->
  map (zget mem) (marks t) = map Some (heaps g t).
Proof.
  revert g. induction t as [i v|i f thr l IHl r IHr]; cbn [marks Inv heaps]; intros g Hk H.
  - cbn [map]. rewrite H. specialize (Hk i (or_introl eq_refl)). destruct (Z.ltb_spec i k); [|lia]. destruct incl; reflexivity.
  - destruct H as [H1 H2]. destruct (H2 (Hk i (or_introl eq_refl))) as [_ [L R]].
    cbn [map]. rewrite !map_app, H1, (IHl (2 * g + 1)), (IHr (2 * g + 2)); auto; intros j Hj; apply Hk; right; apply in_or_app; auto.
Qed.
Lemma inv_max k mem mx g t : 0 <= g -> g <= mx -> (forall j, In j (marks t) -> j < k) -> Inv k mem mx g t -> maxheap g t <= mx.
Proof.
  revert g. induction t as [i v|i f thr l IHl r IHr]; cbn [marks Inv maxheap]; intros g Hg Hx Hk H; [lia|].
  destruct H as [H1 H2]. destruct (H2 (Hk i (or_introl eq_refl))) as [M [L R]].
  apply Z.max_lub; [apply IHl|apply IHr]; auto; try lia; intros j Hj; apply Hk; right; apply in_or_app; auto.
Qed.

(** One tree. *)
Lemma node_indices_ok (e : ensemble N) t i a mem : represents e t -> parents_first t -> (height t <= 63)%nat ->
  zget (e_root e) i = Some a -> mark t = a ->
  Permutation (marks t) (zrange a (a + Z.of_nat (size t))) ->
  0 <= a -> a + Z.of_nat (size t) <= Z.of_nat (length mem) -> zget mem a = Some 0 ->
  exists mem', node_indices incl e i (a + Z.of_nat (size t)) mem = Ok (mem', Z.of_nat (height t)) /\
    map (zget mem') (marks t) = map Some (heaps 0 t) /\
    (forall j, ~ In j (marks t) -> zget mem' j = zget mem j) /\ length mem' = length mem.
Proof.
  intros Hrep Hpf Hh Hroot Hmark Hperm Ha Hlen Hzero. unfold node_indices. rewrite (mem_get_zget _ _ _ Hroot). cbn [bind].
  assert (Hmh : maxheap 0 t + 2 <= 2 ^ 64).
  { destruct (maxheap_bounds 0 t ltac:(lia)) as [_ H]. change (0 + 2) with 2 in H.
    assert (2 ^ Z.of_nat (height t) <= 2 ^ 63) by (apply Z.pow_le_mono_r; lia).
    assert (P : 2 ^ 64 = 2 ^ 63 * 2) by reflexivity. lia. }
  assert (Hin : forall k, In k (marks t) <-> a <= k < a + Z.of_nat (size t)).
  { intro k. rewrite <- in_zrange. split; apply Permutation_in; [exact Hperm|apply Permutation_sym; exact Hperm]. }
  destruct (foldM_zrange_inv (index_step incl e)
    (fun k s => Inv k (fst s) (snd s) 0 t /\ (forall j, ~ In j (marks t) -> zget (fst s) j = zget mem j) /\
                length (fst s) = length mem /\ 0 <= snd s <= maxheap 0 t)
    (a + Z.of_nat (size t)) _ a (mem, 0) eq_refl) as [[m x] [E [HI [F [L B]]]]].
  - lia.
  - cbn [fst snd]. split; [apply inv_top; [lia|congruence]|]. split; [reflexivity|]. split; [reflexivity|].
    pose proof (maxheap_ge 0 t ltac:(lia)). lia.
  - intros k [m x] Hk [HI [F [L B]]]. cbn [fst snd] in *.
    destruct (step_ok e t Hrep Hpf) with (k := k) (mem := m) (mx := x) (g := 0) as [m' [x' [E [HI' [F' [L' B']]]]]].
    + apply (Permutation_NoDup (Permutation_sym Hperm)). apply zrange_nodup.
    + lia.
    + lia.
    + apply Hin. exact Hk.
    + intros j Hj. apply Hin in Hj. lia.
    + exact HI.
    + exists (m', x'). split; [exact E|]. cbn [fst snd]. split; [exact HI'|]. split.
      * intros j Hj. rewrite F' by exact Hj. apply F. exact Hj.
      * split; [congruence|lia].
  - cbn [fst snd] in *. rewrite E. cbn [bind fst snd]. exists m.
    assert (Hlt : forall j, In j (marks t) -> j < a + Z.of_nat (size t)) by (intros j Hj; apply Hin in Hj; lia).
    assert (x = maxheap 0 t) by (pose proof (inv_max _ _ _ _ _ (Z.le_refl 0) (proj1 B) Hlt HI); lia). subst x.
    split; [|split; [apply (inv_end _ _ _ _ _ Hlt HI)|split; [exact F|exact L]]].
    repeat f_equal. pose proof (maxheap_ge 0 t ltac:(lia)). rewrite u64_small, msb_u64 by lia.
    destruct (maxheap_bounds 0 t ltac:(lia)) as [M1 M2].
    apply Z.log2_unique; [lia|]. rewrite Z.pow_succ_r by lia. lia.
Qed.
End Number.
