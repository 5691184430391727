(** Proofs about rank correlations: Kendall. *)
From Coq Require Import List ZArith Reals Bool Lia Lra Permutation.
From Verif Require Import Base Num Lists M_Dataset M_Metrics S_Ensemble M_Correlation S_Correlation L_Feature4.
Import ListNotations.
Local Open Scope R_scope.

Lemma pairs_positions {A} (d : A) (l : list A) : pairs l = map (fun q => (nth (fst q) l d, nth (snd q) l d)) (positions (length l)).
Proof.
  induction l as [|a l IH]; [reflexivity|]. cbn [pairs length]. unfold positions. cbn [seq map concat]. rewrite map_app. f_equal.
  - replace (S (length l) - 1)%nat with (length l) by lia. rewrite map_map. cbn [fst snd nth]. clear IH.
    rewrite <- seq_shift, map_map. cbn [nth]. rewrite <- (map_map (fun k => nth k l d) (pair a)). f_equal.
    apply nth_ext with (d := d) (d' := d); [rewrite map_length, seq_length; reflexivity|]. intros k Hk.
    rewrite (nth_indep (map _ _) d (nth 0 l d)) by (rewrite map_length, seq_length; exact Hk). rewrite (map_nth (fun k => nth k l d)), seq_nth by exact Hk. reflexivity.
  - rewrite IH. unfold positions. rewrite <- seq_shift, map_map. rewrite !concat_map, !map_map. f_equal. apply map_ext. intros i.
    rewrite !map_map. cbn [fst snd nth]. replace (S (length l) - S (S i))%nat with (length l - S i)%nat by lia. rewrite <- (seq_shift (length l - S i) (S i)), map_map. reflexivity.
Qed.
Lemma positions_in n i j : In (i, j) (positions n) <-> (i < j < n)%nat.
Proof.
  unfold positions. rewrite in_concat. split.
  - intros [l [H1 H2]]. apply in_map_iff in H1. destruct H1 as [k [<- Hk]]. apply in_map_iff in H2. destruct H2 as [m [E Hm]]. injection E as <- <-. apply in_seq in Hk, Hm. lia.
  - intros H. exists (map (pair i) (seq (S i) (n - S i))). split; [apply in_map_iff; exists i; split; [reflexivity|apply in_seq; lia]|]. apply in_map, in_seq. lia.
Qed.
Lemma pairs_length {A} (l : list A) : (2 * Z.of_nat (length (pairs l)) = Z.of_nat (length l) * (Z.of_nat (length l) - 1))%Z.
Proof. induction l as [|a l IH]; [reflexivity|]. cbn [pairs length]. rewrite app_length, map_length. nia. Qed.
Lemma total_pairs {A} (l : list A) : (Z.of_nat (length l) * (Z.of_nat (length l) - 1) / 2 = Z.of_nat (length (pairs l)))%Z.
Proof. rewrite <- pairs_length, Z.mul_comm. apply Z.div_mul. discriminate. Qed.

(** The four kinds of pairs, over any list of pairs. *)
Notation row := (R * R)%type.
Definition alikeb (q : row * row) : bool := Rltb 0 ((fst (fst q) - fst (snd q)) * (snd (fst q) - snd (snd q))).
Definition against (q : row * row) : bool := Rltb ((fst (fst q) - fst (snd q)) * (snd (fst q) - snd (snd q))) 0.
Definition only_fst (q : row * row) : bool := Reqb (fst (fst q)) (fst (snd q)) && negb (Reqb (snd (fst q)) (snd (snd q))).
Definition only_snd (q : row * row) : bool := Reqb (snd (fst q)) (snd (snd q)) && negb (Reqb (fst (fst q)) (fst (snd q))).
Definition both (q : row * row) : bool := Reqb (fst (fst q)) (fst (snd q)) && Reqb (snd (fst q)) (snd (snd q)).

Lemma Rsign (a b : R) : (a < b /\ Rltb a b = true /\ Rltb b a = false /\ Reqb a b = false) \/ (b < a /\ Rltb a b = false /\ Rltb b a = true /\ Reqb a b = false) \/
  (a = b /\ Rltb a b = false /\ Rltb b a = false /\ Reqb a b = true).
Proof.
  destruct (Rtotal_order a b) as [H|[H|H]]; [left|right; right|right; left]; (split; [lra|]); rewrite ?Rltb_true, ?Rltb_false, ?Reqb_true, ?Reqb_false; lra.
Qed.
Lemma against_ok q : opposite (N:=RE) q = against q.
Proof.
  destruct q as [[a b] [c d]]. unfold opposite, against. cbn [fst snd]. change (@nltb RE) with Rltb.
  destruct (Rsign a c) as [(H1 & -> & -> & _)|[(H1 & -> & -> & _)|(H1 & -> & -> & _)]], (Rsign b d) as [(H2 & -> & -> & _)|[(H2 & -> & -> & _)|(H2 & -> & -> & _)]]; cbn [andb orb]; symmetry;
  rewrite ?Rltb_true, ?Rltb_false; nra.
Qed.
Lemma kinds q : exists k, (alikeb q, against q, only_fst q, only_snd q, both q) = k /\
  In k [(true, false, false, false, false); (false, true, false, false, false); (false, false, true, false, false); (false, false, false, true, false); (false, false, false, false, true)].
Proof.
  eexists. split; [reflexivity|]. destruct q as [[a b] [c d]]. unfold alikeb, against, only_fst, only_snd, both. cbn [fst snd].
  assert (P : forall x, Rltb 0 x = true /\ Rltb x 0 = false /\ 0 < x \/ Rltb 0 x = false /\ Rltb x 0 = true /\ x < 0 \/ Rltb 0 x = false /\ Rltb x 0 = false /\ x = 0).
  { intros x. destruct (Rsign 0 x) as [(H & -> & -> & _)|[(H & -> & -> & _)|(H & -> & -> & _)]]; [left|right; left|right; right]; repeat split; lra. }
  destruct (Rsign a c) as [(H1 & _ & _ & ->)|[(H1 & _ & _ & ->)|(H1 & _ & _ & ->)]], (Rsign b d) as [(H2 & _ & _ & ->)|[(H2 & _ & _ & ->)|(H2 & _ & _ & ->)]];
  destruct (P ((a - c) * (b - d))) as [(-> & -> & H)|[(-> & -> & H)|(-> & -> & H)]]; cbn [negb andb]; try (exfalso; nra); cbn [In]; auto 6.
Qed.
Definition num_of (p : row * row -> bool) (l : list (row * row)) : Z := count_if p l.
Lemma sums (l : list (row * row)) :
  (Z.of_nat (length l) = num_of alikeb l + num_of against l + num_of only_fst l + num_of only_snd l + num_of both l)%Z /\
  (count_if (tied_fst (N:=RE)) l = num_of only_fst l + num_of both l)%Z /\ (count_if (tied_snd (N:=RE)) l = num_of only_snd l + num_of both l)%Z /\
  (count_if (fun q => tied_fst (N:=RE) q && tied_snd (N:=RE) q) l = num_of both l)%Z /\ (count_if (opposite (N:=RE)) l = num_of against l)%Z.
Proof.
  unfold num_of, count_if. induction l as [|q l (I1 & I2 & I3 & I4 & I5)]; [repeat split; reflexivity|]. cbn [filter length].
  assert (T : tied_fst (N:=RE) q = only_fst q || both q /\ tied_snd (N:=RE) q = only_snd q || both q /\ (tied_fst (N:=RE) q && tied_snd (N:=RE) q) = both q).
  { change (tied_fst (N:=RE) q) with (Reqb (fst (fst q)) (fst (snd q))). change (tied_snd (N:=RE) q) with (Reqb (snd (fst q)) (snd (snd q))).
    unfold only_fst, only_snd, both. destruct (Reqb (fst (fst q)) _), (Reqb (snd (fst q)) _); repeat split; reflexivity. }
  destruct T as (T1 & T2 & T3). rewrite T3, T1, T2, against_ok. destruct (kinds q) as (k & E & Hk).
  destruct Hk as [<-|[<-|[<-|[<-|[<-|[]]]]]]; injection E as -> -> -> -> ->; cbn [orb length]; lia.
Qed.
Lemma num_of_nonneg p l : (0 <= num_of p l)%Z.
Proof. unfold num_of, count_if. lia. Qed.

Lemma clip_id (v : R) : -1 <= v <= 1 -> clip (N:=RE) v = v.
Proof.
  intros H. unfold clip. change (@nltb RE) with Rltb. change (@nofZ RE (-1)) with (-1). change (@none RE) with 1.
  destruct (Rltb v (-1)) eqn:E; [apply Rltb_true in E; lra|]. destruct (Rltb 1 v) eqn:E2; [apply Rltb_true in E2; lra|]. reflexivity.
Qed.
Lemma root_bounds (P Q T U : R) : 0 <= P -> 0 <= Q -> 0 <= T -> 0 <= U -> 0 < P + Q + T -> 0 < P + Q + U ->
  0 < sqrt ((P + Q + T) * (P + Q + U)) /\ P + Q <= sqrt ((P + Q + T) * (P + Q + U)) /\
  (P + Q = sqrt ((P + Q + T) * (P + Q + U)) -> T = 0 /\ U = 0).
Proof.
  intros H1 H2 H3 H4 H5 H6. assert (HP : 0 < (P + Q + T) * (P + Q + U)) by (apply Rmult_lt_0_compat; assumption). pose proof (sqrt_lt_R0 _ HP) as S0. split; [exact S0|]. split.
  - rewrite <- (sqrt_square (P + Q)) at 1 by lra. apply sqrt_le_1_alt. nra.
  - intros E. pose proof (sqrt_sqrt _ (Rlt_le _ _ HP)) as SS. rewrite <- E in SS, S0. assert ((P + Q) * T + (P + Q) * U + T * U = 0) by nra. split; nra.
Qed.

(** A list of pairs as a function of the positions. *)
Lemma combine_nth2 (y s : list R) i : length y = length s -> nth i (combine y s) (0, 0) = (at_ y i, at_ s i).
Proof. intros H. apply combine_nth. exact H. Qed.
Lemma howmany_pairs (y s : list R) p (g : nat -> nat -> bool) : length y = length s -> (forall i j, p ((at_ y i, at_ s i), (at_ y j, at_ s j)) = g i j) ->
  howmany (length y) g = IZR (num_of p (pairs (combine y s))).
Proof.
  intros HL H. rewrite (pairs_positions (0, 0)). rewrite combine_length, <- HL, Nat.min_id. unfold howmany, num_of, count_if. rewrite <- INR_IZR_INZ. f_equal.
  induction (positions (length y)) as [|[i j] l IH]; [reflexivity|]. cbn [map filter fst snd]. rewrite !combine_nth2 by exact HL. rewrite H. destruct (g i j); cbn [length]; rewrite IH; reflexivity.
Qed.
Lemma num_zero p (l : list (row * row)) : num_of p l = 0%Z <-> forall q, In q l -> p q = false.
Proof.
  unfold num_of, count_if. induction l as [|q l IH]; cbn [filter]; [split; [intros _ ? []|reflexivity]|]. destruct (p q) eqn:E.
  - cbn [length]. split; [lia|]. intros H. specialize (H q (or_introl eq_refl)). congruence.
  - rewrite IH. split; intros H; [intros q' [<-|H']; [exact E|apply H; exact H']|intros q' H'; apply H; right; exact H'].
Qed.
Lemma in_pairs (y s : list R) q : length y = length s -> In q (pairs (combine y s)) <-> exists i j, (i < j < length y)%nat /\ q = ((at_ y i, at_ s i), (at_ y j, at_ s j)).
Proof.
  intros HL. rewrite (pairs_positions (0, 0)), in_map_iff, combine_length, <- HL, Nat.min_id. split.
  - intros [[i j] [<- H]]. apply positions_in in H. exists i, j. cbn [fst snd]. rewrite !combine_nth2 by exact HL. auto.
  - intros (i & j & H & ->). exists (i, j). cbn [fst snd]. rewrite !combine_nth2 by exact HL. split; [reflexivity|]. apply positions_in, H.
Qed.

(** Everything about one query. *)
Section Query.
Variables y s : list R.
Hypothesis HL : length y = length s.
Notation ps := (pairs (combine y s)).
Notation P := (num_of alikeb ps).
Notation Q := (num_of against ps).
Notation T := (num_of only_fst ps).
Notation U := (num_of only_snd ps).
Notation B := (num_of both ps).

Lemma tau_counts : tau y s = IZR (P - Q) / sqrt (IZR (P + Q + T) * IZR (P + Q + U)).
Proof.
  unfold tau. rewrite (howmany_pairs y s alikeb) by (exact HL || reflexivity). rewrite (howmany_pairs y s against) by (exact HL || reflexivity).
  rewrite (howmany_pairs y s only_fst) by (exact HL || reflexivity). rewrite (howmany_pairs y s only_snd) by (exact HL || reflexivity).
  rewrite !plus_IZR, minus_IZR. reflexivity.
Qed.
Lemma flat_fst : flat y <-> (P + Q + U = 0)%Z.
Proof.
  pose proof (num_of_nonneg alikeb ps). pose proof (num_of_nonneg against ps). pose proof (num_of_nonneg only_snd ps). split.
  - intros F. assert (Z : forall q, In q ps -> alikeb q = false /\ against q = false /\ only_snd q = false).
    { intros q Hq. apply (in_pairs y s q HL) in Hq. destruct Hq as (i & j & Hij & ->). assert (E : at_ y i = at_ y j) by (apply F; lia).
      unfold alikeb, against, only_snd. cbn [fst snd]. rewrite E. replace ((at_ y j - at_ y j) * (at_ s i - at_ s j)) with 0 by ring.
      rewrite (proj2 (Rltb_false 0 0) (Rle_refl 0)). rewrite (proj2 (Reqb_true (at_ y j) (at_ y j)) eq_refl). rewrite andb_false_r. auto. }
    rewrite (proj2 (num_zero alikeb ps)), (proj2 (num_zero against ps)), (proj2 (num_zero only_snd ps)) by (intros q Hq; apply (Z q Hq)). reflexivity.
  - intros E. assert (P = 0 /\ Q = 0 /\ U = 0)%Z as (E1 & E2 & E3) by lia.
    assert (G : forall i j, (i < j < length y)%nat -> at_ y i = at_ y j).
    { intros i j Hij. set (q := ((at_ y i, at_ s i), (at_ y j, at_ s j))). assert (Hq : In q ps) by (apply (in_pairs y s q HL); exists i, j; auto).
      pose proof (proj1 (num_zero _ _) E1 q Hq) as Z1. pose proof (proj1 (num_zero _ _) E2 q Hq) as Z2. pose proof (proj1 (num_zero _ _) E3 q Hq) as Z3.
      destruct (kinds q) as (k & K & Hk). rewrite Z1, Z2, Z3 in K. destruct Hk as [<-|[<-|[<-|[<-|[<-|[]]]]]]; try discriminate; injection K as K1 K2.
      - unfold only_fst in K1. apply andb_true_iff in K1. apply Reqb_true, K1.
      - unfold both in K2. apply andb_true_iff in K2. apply Reqb_true, K2. }
    intros i j Hi Hj. destruct (Nat.lt_trichotomy i j) as [H'|[->|H']]; [apply G; lia|reflexivity|symmetry; apply G; lia].
Qed.
Lemma flat_snd : flat s <-> (P + Q + T = 0)%Z.
Proof.
  pose proof (num_of_nonneg alikeb ps). pose proof (num_of_nonneg against ps). pose proof (num_of_nonneg only_fst ps). split.
  - intros F. assert (Z : forall q, In q ps -> alikeb q = false /\ against q = false /\ only_fst q = false).
    { intros q Hq. apply (in_pairs y s q HL) in Hq. destruct Hq as (i & j & Hij & ->). assert (E : at_ s i = at_ s j) by (apply F; lia).
      unfold alikeb, against, only_fst. cbn [fst snd]. rewrite E. replace ((at_ y i - at_ y j) * (at_ s j - at_ s j)) with 0 by ring.
      rewrite (proj2 (Rltb_false 0 0) (Rle_refl 0)). rewrite (proj2 (Reqb_true (at_ s j) (at_ s j)) eq_refl). rewrite andb_false_r. auto. }
    rewrite (proj2 (num_zero alikeb ps)), (proj2 (num_zero against ps)), (proj2 (num_zero only_fst ps)) by (intros q Hq; apply (Z q Hq)). reflexivity.
  - intros E. assert (P = 0 /\ Q = 0 /\ T = 0)%Z as (E1 & E2 & E3) by lia.
    assert (G : forall i j, (i < j < length y)%nat -> at_ s i = at_ s j).
    { intros i j Hij. set (q := ((at_ y i, at_ s i), (at_ y j, at_ s j))). assert (Hq : In q ps) by (apply (in_pairs y s q HL); exists i, j; auto).
      pose proof (proj1 (num_zero _ _) E1 q Hq) as Z1. pose proof (proj1 (num_zero _ _) E2 q Hq) as Z2. pose proof (proj1 (num_zero _ _) E3 q Hq) as Z3.
      destruct (kinds q) as (k & K & Hk). rewrite Z1, Z2, Z3 in K. destruct Hk as [<-|[<-|[<-|[<-|[<-|[]]]]]]; try discriminate; injection K as K1 K2.
      - unfold only_snd in K1. apply andb_true_iff in K1. apply Reqb_true, K1.
      - unfold both in K2. apply andb_true_iff in K2. apply Reqb_true, K2. }
    intros i j Hi Hj. rewrite <- HL in Hi, Hj. destruct (Nat.lt_trichotomy i j) as [H'|[->|H']]; [apply G; lia|reflexivity|symmetry; apply G; lia].
Qed.

Lemma tau_bounds : ~ flat y -> ~ flat s -> -1 <= tau y s <= 1 /\ (tau y s = 1 <-> (Q = 0 /\ T = 0 /\ U = 0)%Z) /\ (tau y s = -1 <-> (P = 0 /\ T = 0 /\ U = 0)%Z).
Proof.
  intros F1 F2. rewrite flat_fst in F1. rewrite flat_snd in F2.
  pose proof (num_of_nonneg alikeb ps) as HP. pose proof (num_of_nonneg against ps) as HQ. pose proof (num_of_nonneg only_fst ps) as HT. pose proof (num_of_nonneg only_snd ps) as HU.
  rewrite tau_counts. revert F1 F2 HP HQ HT HU. generalize P Q T U. intros p q t u F1 F2 HP HQ HT HU.
  assert (G1 : 0 < IZR p + IZR q + IZR t) by (rewrite <- !plus_IZR; apply IZR_lt; lia). assert (G2 : 0 < IZR p + IZR q + IZR u) by (rewrite <- !plus_IZR; apply IZR_lt; lia).
  apply IZR_le in HP, HQ, HT, HU. destruct (root_bounds _ _ _ _ HP HQ HT HU G1 G2) as (S0 & S1 & S2).
  rewrite !plus_IZR, minus_IZR. set (r := sqrt _) in *.
  assert (D : forall a b, (a / r <= b <-> a <= b * r) /\ (b <= a / r <-> b * r <= a) /\ (a / r = b <-> a = b * r)).
  { intros a b. assert (E : a = a / r * r) by (field; lra). split; [|split]; split; intros H.
    - rewrite E. apply Rmult_le_compat_r; lra.
    - apply (Rmult_le_reg_r r); lra.
    - rewrite E. apply Rmult_le_compat_r; lra.
    - apply (Rmult_le_reg_r r); lra.
    - rewrite E, H. reflexivity.
    - rewrite H. field. lra. }
  split; [|split].
  - split; apply D; lra.
  - rewrite (proj2 (proj2 (D _ _))). split.
    + intros E. assert (q = 0)%Z by (apply eq_IZR; lra). destruct S2 as [A B]; [lra|]. apply eq_IZR in A, B. auto.
    + intros (-> & -> & ->). assert (r = IZR p); [|lra]. unfold r. replace (IZR p + 0 + 0) with (IZR p) by lra. apply sqrt_square. exact HP.
  - rewrite (proj2 (proj2 (D _ _))). split.
    + intros E. assert (p = 0)%Z by (apply eq_IZR; lra). destruct S2 as [A B]; [lra|]. apply eq_IZR in A, B. auto.
    + intros (-> & -> & ->). assert (r = IZR q); [|lra]. unfold r. replace (0 + IZR q + 0) with (IZR q) by lra. apply sqrt_square. exact HQ.
Qed.

Lemma same_order_counts : same_order y s <-> (Q = 0 /\ T = 0 /\ U = 0)%Z.
Proof.
  rewrite !num_zero. split.
  - intros F. split; [|split]; intros q Hq; apply (in_pairs y s q HL) in Hq; destruct Hq as (i & j & Hij & ->); pose proof (F i j ltac:(lia) ltac:(lia)) as F1; pose proof (F j i ltac:(lia) ltac:(lia)) as F2;
    unfold against, only_fst, only_snd; cbn [fst snd]; destruct (Rsign (at_ y i) (at_ y j)) as [(H1 & _ & _ & E1)|[(H1 & _ & _ & E1)|(H1 & _ & _ & E1)]], (Rsign (at_ s i) (at_ s j)) as [(H2 & _ & _ & E2)|[(H2 & _ & _ & E2)|(H2 & _ & _ & E2)]]; rewrite ?E1, ?E2; try reflexivity; try (exfalso; lra);
    apply Rltb_false; nra.
  - intros (Z1 & Z2 & Z3).
    assert (G : forall i j, (i < j < length y)%nat -> (at_ y i < at_ y j <-> at_ s i < at_ s j) /\ (at_ y j < at_ y i <-> at_ s j < at_ s i)).
    { intros i j Hij. set (q := ((at_ y i, at_ s i), (at_ y j, at_ s j))). assert (Hq : In q ps) by (apply (in_pairs y s q HL); exists i, j; auto).
      specialize (Z1 q Hq). specialize (Z2 q Hq). specialize (Z3 q Hq). unfold against, only_fst, only_snd, q in Z1, Z2, Z3. cbn [fst snd] in Z1, Z2, Z3. apply Rltb_false in Z1.
      destruct (Rsign (at_ y i) (at_ y j)) as [(H1 & _ & _ & E1)|[(H1 & _ & _ & E1)|(H1 & _ & _ & E1)]], (Rsign (at_ s i) (at_ s j)) as [(H2 & _ & _ & E2)|[(H2 & _ & _ & E2)|(H2 & _ & _ & E2)]];
      rewrite E1, E2 in Z2, Z3; cbn [andb negb] in Z2, Z3; try discriminate; try (split; split; intros; lra); exfalso; nra. }
    intros i j Hi Hj. destruct (Nat.lt_trichotomy i j) as [H|[->|H]]; [exact (proj1 (G i j ltac:(lia)))|split; intros; lra|exact (proj2 (G j i ltac:(lia)))].
Qed.
Lemma opposite_order_counts : opposite_order y s <-> (P = 0 /\ T = 0 /\ U = 0)%Z.
Proof.
  rewrite !num_zero. split.
  - intros F. split; [|split]; intros q Hq; apply (in_pairs y s q HL) in Hq; destruct Hq as (i & j & Hij & ->); pose proof (F i j ltac:(lia) ltac:(lia)) as F1; pose proof (F j i ltac:(lia) ltac:(lia)) as F2;
    unfold alikeb, only_fst, only_snd; cbn [fst snd]; destruct (Rsign (at_ y i) (at_ y j)) as [(H1 & _ & _ & E1)|[(H1 & _ & _ & E1)|(H1 & _ & _ & E1)]], (Rsign (at_ s i) (at_ s j)) as [(H2 & _ & _ & E2)|[(H2 & _ & _ & E2)|(H2 & _ & _ & E2)]]; rewrite ?E1, ?E2; try reflexivity; try (exfalso; lra);
    apply Rltb_false; nra.
  - intros (Z1 & Z2 & Z3).
    assert (G : forall i j, (i < j < length y)%nat -> (at_ y i < at_ y j <-> at_ s j < at_ s i) /\ (at_ y j < at_ y i <-> at_ s i < at_ s j)).
    { intros i j Hij. set (q := ((at_ y i, at_ s i), (at_ y j, at_ s j))). assert (Hq : In q ps) by (apply (in_pairs y s q HL); exists i, j; auto).
      specialize (Z1 q Hq). specialize (Z2 q Hq). specialize (Z3 q Hq). unfold alikeb, only_fst, only_snd, q in Z1, Z2, Z3. cbn [fst snd] in Z1, Z2, Z3. apply Rltb_false in Z1.
      destruct (Rsign (at_ y i) (at_ y j)) as [(H1 & _ & _ & E1)|[(H1 & _ & _ & E1)|(H1 & _ & _ & E1)]], (Rsign (at_ s i) (at_ s j)) as [(H2 & _ & _ & E2)|[(H2 & _ & _ & E2)|(H2 & _ & _ & E2)]];
      rewrite E1, E2 in Z2, Z3; cbn [andb negb] in Z2, Z3; try discriminate; try (split; split; intros; lra); exfalso; nra. }
    intros i j Hi Hj. destruct (Nat.lt_trichotomy i j) as [H|[->|H]]; [exact (proj1 (G i j ltac:(lia)))|split; intros; lra|exact (proj2 (G j i ltac:(lia)))].
Qed.

Lemma kendall_none : flat y \/ flat s -> kendalltau (N:=RE) y s = Ok None.
Proof.
  intros F. rewrite flat_fst, flat_snd in F. unfold kendalltau. change (car RE) with R. rewrite (proj2 (Nat.eqb_eq _ _) HL).
  assert (HC : length y = length (combine y s)) by (rewrite combine_length, <- HL, Nat.min_id; reflexivity).
  pose proof (total_pairs (combine y s)) as TP. rewrite <- HC in TP. cbv zeta. rewrite TP.
  destruct (sums ps) as (S1 & S2 & S3 & S4 & S5). change (car RE) with R in *. rewrite S1, S2, S3.
  destruct F as [F|F].
  - rewrite (proj2 (Z.eqb_eq (T + B) (P + Q + T + U + B))) by lia. reflexivity.
  - rewrite (proj2 (Z.eqb_eq (U + B) (P + Q + T + U + B))) by lia. rewrite orb_true_r. reflexivity.
Qed.
Lemma kendall_some : ~ flat y -> ~ flat s -> kendalltau (N:=RE) y s = Ok (Some (tau y s : RE)).
Proof.
  intros F1 F2. pose proof (tau_bounds F1 F2) as [TB _]. rewrite flat_fst in F1. rewrite flat_snd in F2. unfold kendalltau. change (car RE) with R. rewrite (proj2 (Nat.eqb_eq _ _) HL).
  assert (HC : length y = length (combine y s)) by (rewrite combine_length, <- HL, Nat.min_id; reflexivity).
  pose proof (total_pairs (combine y s)) as TP. rewrite <- HC in TP. cbv zeta. rewrite TP.
  destruct (sums ps) as (S1 & S2 & S3 & S4 & S5). change (car RE) with R in *. rewrite S1, S2, S3, S4, S5.
  rewrite (proj2 (Z.eqb_neq (T + B) (P + Q + T + U + B))) by lia. rewrite (proj2 (Z.eqb_neq (U + B) (P + Q + T + U + B))) by lia. cbn [orb]. do 2 f_equal.
  rewrite <- (clip_id (tau y s) TB). f_equal. rewrite tau_counts.
  change (@ndiv RE) with Rdiv. change (@nsqrt RE) with sqrt. change (@nofZ RE) with IZR.
  replace (P + Q + T + U + B - (T + B) - (U + B) + B - 2 * Q)%Z with (P - Q)%Z by lia. replace (P + Q + T + U + B - (T + B))%Z with (P + Q + U)%Z by lia. replace (P + Q + T + U + B - (U + B))%Z with (P + Q + T)%Z by lia.
  pose proof (num_of_nonneg alikeb ps) as HP. pose proof (num_of_nonneg against ps) as HQ. pose proof (num_of_nonneg only_fst ps) as HT. pose proof (num_of_nonneg only_snd ps) as HU.
  rewrite sqrt_mult by (apply IZR_le; lia). assert (A1 : 0 < sqrt (IZR (P + Q + T))) by (apply sqrt_lt_R0, IZR_lt; lia). assert (A2 : 0 < sqrt (IZR (P + Q + U))) by (apply sqrt_lt_R0, IZR_lt; lia).
  match goal with |- ?a = ?b => change (@eq R a b) end. field. split; lra.
Qed.
End Query.
