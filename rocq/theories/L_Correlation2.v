(** Proofs about rank correlations: Spearman. *)
From Coq Require Import List ZArith Reals Bool Lia Lra Permutation.
From Verif Require Import Base Num Lists M_Dataset M_Metrics S_Ensemble M_Correlation S_Correlation L_Feature4 L_Correlation.
Import ListNotations.
Local Open Scope R_scope.

Lemma nsum_total (l : list R) : nsum (N:=RE) l = Rtotal l.
Proof.
  unfold nsum, Rtotal. change (@nadd RE) with Rplus. change (@nzero RE) with 0. change (car RE) with R.
  assert (G : forall a, fold_left Rplus l a = a + fold_right Rplus 0 l); [|rewrite G; lra].
  induction l as [|x l IH]; intros a; cbn [fold_left fold_right]; [lra|]. rewrite IH. lra.
Qed.

(** Sums of products. *)
Definition dot (a b : list R) : R := Rtotal (map (fun p => fst p * snd p) (combine a b)).
Lemma dot_cons x a z b : dot (x :: a) (z :: b) = x * z + dot a b.
Proof. reflexivity. Qed.
Lemma dot_self_nonneg a : 0 <= dot a a.
Proof. induction a as [|x a IH]; [unfold dot; cbn; lra|]. rewrite dot_cons. nra. Qed.
Lemma dot_self_zero a : dot a a = 0 -> Forall (fun x => x = 0) a.
Proof.
  induction a as [|x a IH]; intros H; [constructor|]. rewrite dot_cons in H. pose proof (dot_self_nonneg a). assert (x * x = 0) by nra. constructor; [nra|]. apply IH. nra.
Qed.
Definition mix (u v : R) (a b : list R) : list R := map (fun p => u * fst p - v * snd p) (combine a b).
Lemma dot_mix u v a : forall b, length a = length b -> dot (mix u v a b) (mix u v a b) = u ^ 2 * dot a a - 2 * u * v * dot a b + v ^ 2 * dot b b.
Proof.
  induction a as [|x a IH]; intros [|z b] H; try discriminate H; [unfold dot, mix; cbn; lra|]. unfold mix in *. cbn [combine map fst snd]. rewrite !dot_cons, IH by (injection H; auto). ring.
Qed.
Lemma cauchy a b : length a = length b -> 0 < dot a a -> 0 < dot b b -> dot a b * dot a b <= dot a a * dot b b.
Proof.
  intros HL Ha Hb. pose proof (dot_self_nonneg (mix (dot b b) (dot a b) a b)) as H. rewrite dot_mix in H by exact HL.
  assert (G : 0 <= dot b b * (dot a a * dot b b - dot a b * dot a b)) by (match type of H with _ <= ?e => replace (dot b b * (dot a a * dot b b - dot a b * dot a b)) with e by ring end; exact H).
  assert (0 <= dot a a * dot b b - dot a b * dot a b); [|lra]. apply (Rmult_le_reg_l (dot b b)); lra.
Qed.
Lemma cauchy_eq a b : length a = length b -> dot a b * dot a b = dot a a * dot b b -> forall i, (i < length a)%nat -> dot b b * at_ a i = dot a b * at_ b i.
Proof.
  intros HL E i Hi. assert (Z : dot (mix (dot b b) (dot a b) a b) (mix (dot b b) (dot a b) a b) = 0) by (rewrite dot_mix by exact HL; replace (dot b b ^ 2 * dot a a - 2 * dot b b * dot a b * dot a b + dot a b ^ 2 * dot b b) with (dot b b * (dot a a * dot b b - dot a b * dot a b)) by ring; rewrite E; ring).
  apply dot_self_zero in Z. rewrite Forall_forall in Z. assert (I : In (dot b b * at_ a i - dot a b * at_ b i) (mix (dot b b) (dot a b) a b)); [|specialize (Z _ I); lra].
  unfold mix. apply in_map_iff. exists (at_ a i, at_ b i). split; [reflexivity|]. unfold at_. rewrite <- combine_nth by exact HL. apply nth_In. rewrite combine_length. lia.
Qed.
Lemma dot_centred (m m' : R) r : forall q, Rtotal (map (fun p => (fst p - m) * (snd p - m')) (combine r q)) = dot (map (fun x => x - m) r) (map (fun x => x - m') q).
Proof. induction r as [|x r IH]; intros [|z q]; try reflexivity. cbn [combine map fst snd]. rewrite Rtotal_cons, IH, dot_cons. reflexivity. Qed.

Definition centred (r : list R) : list R := map (fun x => x - mean_of r) r.
Lemma centred_length r : length (centred r) = length r.
Proof. apply map_length. Qed.
Lemma centred_at r i : (i < length r)%nat -> at_ (centred r) i = at_ r i - mean_of r.
Proof. intros H. unfold at_, centred. rewrite (nth_indep _ 0 (0 - mean_of r)) by (rewrite map_length; exact H). rewrite (map_nth (fun x => x - mean_of r)). reflexivity. Qed.
Lemma pearson_dot a b : pearson a b = dot (centred a) (centred b) / sqrt (dot (centred a) (centred a) * dot (centred b) (centred b)).
Proof. unfold pearson. cbv zeta. rewrite !dot_centred. reflexivity. Qed.
Lemma centred_pos r : ~ flat r -> 0 < dot (centred r) (centred r).
Proof.
  intros H. destruct (Rle_lt_or_eq_dec 0 _ (dot_self_nonneg (centred r))) as [G|G]; [exact G|]. exfalso. apply H. symmetry in G. apply dot_self_zero in G. rewrite Forall_forall in G.
  assert (E : forall i, (i < length r)%nat -> at_ r i = mean_of r).
  { intros i Hi. assert (at_ (centred r) i = 0) as Z by (apply G, nth_In; rewrite centred_length; exact Hi). rewrite centred_at in Z by exact Hi. lra. }
  intros i j Hi Hj. rewrite !E by assumption. reflexivity.
Qed.

Lemma quotient_bounds (c A B : R) : 0 < A -> 0 < B -> c * c <= A * B ->
  -1 <= c / sqrt (A * B) <= 1 /\ (c / sqrt (A * B) = 1 <-> 0 < c /\ c * c = A * B) /\ (c / sqrt (A * B) = -1 <-> c < 0 /\ c * c = A * B).
Proof.
  intros HA HB HC. assert (HP : 0 < A * B) by (apply Rmult_lt_0_compat; assumption). pose proof (sqrt_lt_R0 _ HP) as S0. pose proof (sqrt_sqrt _ (Rlt_le _ _ HP)) as SS. set (r := sqrt (A * B)) in *.
  assert (D : forall b, (c / r <= b <-> c <= b * r) /\ (b <= c / r <-> b * r <= c) /\ (c / r = b <-> c = b * r)).
  { intros b. assert (E : c = c / r * r) by (field; lra). split; [|split]; split; intros H.
    - rewrite E. apply Rmult_le_compat_r; lra.
    - apply (Rmult_le_reg_r r); lra.
    - rewrite E. apply Rmult_le_compat_r; lra.
    - apply (Rmult_le_reg_r r); lra.
    - rewrite E, H. reflexivity.
    - rewrite H. field. lra. }
  rewrite <- SS in HC |- *. split; [|split].
  - split; apply D; nra.
  - rewrite (proj2 (proj2 (D _))). split; [intros ->; split; nra|intros [G1 G2]; nra].
  - rewrite (proj2 (proj2 (D _))). split; [intros ->; split; nra|intros [G1 G2]; nra].
Qed.

(** Ranks. *)
Lemma seq_total (m : nat) : forall k (b : R), Rtotal (map (fun j => b + INR j) (seq k m)) = INR m * b + INR m * (2 * INR k + INR m - 1) / 2.
Proof.
  induction m as [|m IH]; intros k b; cbn [seq map]; [change (Rtotal []) with 0; cbn; lra|]. rewrite Rtotal_cons, IH, !S_INR. field.
Qed.
Lemma ties_pos l v : In v l -> 1 <= ties l v.
Proof.
  intros H. unfold ties. assert (G : In v (filter (fun x => Reqb x v) l)) by (apply filter_In; split; [exact H|apply Reqb_true; reflexivity]).
  destruct (filter _ l) as [|a f]; [destruct G|]. cbn [length]. rewrite S_INR. pose proof (pos_INR (length f)). lra.
Qed.
Lemma rank_closed l v : In v l -> rank l v = below l v + (ties l v + 1) / 2.
Proof.
  intros H. pose proof (ties_pos l v H) as T. unfold rank, places. rewrite seq_total. fold (ties l v). change (INR 1) with 1. field. lra.
Qed.
Lemma rankdata_rank (l : list R) : rankdata (N:=RE) l = map (rank l) l.
Proof.
  unfold rankdata. apply map_ext_in. intros v Hv. rewrite rank_closed by exact Hv. unfold below, ties, count_if. change (@nadd RE) with Rplus. change (@ndiv RE) with Rdiv. change (@nofZ RE) with IZR. change (@nltb RE) with Rltb. change (@neqb RE) with Reqb. change (car RE) with R.
  rewrite plus_IZR, <- !INR_IZR_INZ. reflexivity.
Qed.
Lemma count_split l u v : u < v -> below l u + ties l u <= below l v.
Proof.
  intros H. unfold below, ties. rewrite <- plus_INR. apply le_INR. induction l as [|x l IH]; [apply le_n|]. cbn [filter].
  destruct (Rsign x u) as [(H1 & -> & _ & ->)|[(H1 & -> & _ & ->)|(H1 & -> & _ & ->)]], (Rsign x v) as [(H2 & -> & _)|[(H2 & -> & _)|(H2 & -> & _)]]; cbn [length]; try lia; exfalso; lra.
Qed.
Lemma rank_lt l u v : In u l -> In v l -> (rank l u < rank l v <-> u < v).
Proof.
  intros Hu Hv. rewrite !rank_closed by assumption. pose proof (ties_pos l u Hu). pose proof (ties_pos l v Hv).
  destruct (Rtotal_order u v) as [G|[->|G]]; [pose proof (count_split l u v G)|split; intros; lra|pose proof (count_split l v u G)]; split; intros; lra.
Qed.
Lemma at_in l i : (i < length l)%nat -> In (at_ l i) l.
Proof. apply nth_In. Qed.
Lemma ranks_at l i : (i < length l)%nat -> at_ (map (rank l) l) i = rank l (at_ l i).
Proof. intros H. unfold at_. rewrite (nth_indep _ 0 (rank l 0)) by (rewrite map_length; exact H). apply map_nth. Qed.
Lemma ranks_flat l : flat (map (rank l) l) <-> flat l.
Proof.
  unfold flat. rewrite map_length. split; intros F i j Hi Hj; specialize (F i j Hi Hj).
  - rewrite !ranks_at in F by assumption. pose proof (proj2 (rank_lt l _ _ (at_in l i Hi) (at_in l j Hj))) as A. pose proof (proj2 (rank_lt l _ _ (at_in l j Hj) (at_in l i Hi))) as B.
    destruct (Rtotal_order (at_ l i) (at_ l j)) as [G|[G|G]]; [specialize (A G); lra|exact G|specialize (B G); lra].
  - rewrite !ranks_at by assumption. rewrite F. reflexivity.
Qed.
Lemma filter_len (f g : R -> bool) (y : list R) : forall s, length y = length s -> (forall j, (j < length y)%nat -> f (at_ y j) = g (at_ s j)) -> length (filter f y) = length (filter g s).
Proof.
  induction y as [|a y IH]; intros [|b s] HL H; try discriminate HL; [reflexivity|]. cbn [filter]. pose proof (H 0%nat ltac:(cbn; lia)) as H0. unfold at_ in H0. cbn [nth] in H0. rewrite <- H0.
  assert (E : length (filter f y) = length (filter g s)) by (apply IH; [injection HL; auto|intros j Hj; apply (H (S j)); cbn; lia]). destruct (f a); cbn [length]; rewrite E; reflexivity.
Qed.
Lemma Rltb_iff a b c d : (a < b <-> c < d) -> Rltb a b = Rltb c d.
Proof. intros H. destruct (Rltb c d) eqn:E; [apply Rltb_true, H, Rltb_true, E|]. apply Rltb_false in E. apply Rltb_false. destruct (Rle_or_lt b a) as [G|G]; [exact G|]. apply H in G. lra. Qed.
Lemma Reqb_iff a b c d : (a = b <-> c = d) -> Reqb a b = Reqb c d.
Proof. intros H. destruct (Reqb c d) eqn:E; [apply Reqb_true, H, Reqb_true, E|]. apply Reqb_false in E. apply Reqb_false. intros G. apply E, H, G. Qed.

Lemma same_ranks y s : length y = length s -> same_order y s -> map (rank y) y = map (rank s) s.
Proof.
  intros HL F. apply nth_ext with (d := 0) (d' := 0); rewrite !map_length; [exact HL|]. intros i Hi. change (at_ (map (rank y) y) i = at_ (map (rank s) s) i).
  rewrite !ranks_at by lia. rewrite !rank_closed by (apply at_in; lia). f_equal; [|do 2 f_equal].
  - unfold below. f_equal. apply filter_len; [exact HL|]. intros j Hj. apply Rltb_iff. apply F; lia.
  - unfold ties. f_equal. apply filter_len; [exact HL|]. intros j Hj. apply Reqb_iff. pose proof (F i j Hi Hj). pose proof (F j i Hj Hi). split; intros; lra.
Qed.
Lemma three_counts l v : below l v + ties l v + INR (length (filter (fun x => Rltb v x) l)) = INR (length l).
Proof.
  unfold below, ties. rewrite <- !plus_INR. f_equal. induction l as [|x l IH]; [reflexivity|]. cbn [filter length]. destruct (Rsign x v) as [(_ & -> & -> & ->)|[(_ & -> & -> & ->)|(_ & -> & -> & ->)]]; cbn [length]; lia.
Qed.
Lemma opposite_ranks y s : length y = length s -> opposite_order y s -> map (rank s) s = map (fun r => INR (length y) + 1 - r) (map (rank y) y).
Proof.
  intros HL F. apply nth_ext with (d := 0) (d' := INR (length y) + 1 - 0); rewrite !map_length; [auto|]. intros i Hi.
  rewrite (map_nth (fun r => INR (length y) + 1 - r)). fold (at_ (map (rank y) y) i). change (at_ (map (rank s) s) i = INR (length y) + 1 - at_ (map (rank y) y) i).
  rewrite !ranks_at by lia. rewrite !rank_closed by (apply at_in; lia). rewrite <- (three_counts y (at_ y i)).
  assert (E1 : ties s (at_ s i) = ties y (at_ y i)).
  { unfold ties. f_equal. apply filter_len; [auto|]. intros j Hj. apply Reqb_iff. pose proof (F i j ltac:(lia) ltac:(lia)). pose proof (F j i ltac:(lia) ltac:(lia)). split; intros; lra. }
  assert (E2 : below s (at_ s i) = INR (length (filter (fun x => Rltb (at_ y i) x) y))).
  { unfold below. f_equal. apply filter_len; [auto|]. intros j Hj. apply Rltb_iff. symmetry. apply F; lia. }
  rewrite E1, E2. field.
Qed.
Lemma mean_flip (n : R) r : r <> [] -> mean_of (map (fun x => n - x) r) = n - mean_of r.
Proof.
  intros H. unfold mean_of. rewrite map_length. assert (G : Rtotal (map (fun x => n - x) r) = INR (length r) * n - Rtotal r).
  { clear H. induction r as [|x r IH]; cbn [map length]; [change (Rtotal []) with 0; cbn; lra|]. rewrite !Rtotal_cons, IH, S_INR. lra. }
  rewrite G. field. apply not_0_INR. destruct r; [contradiction|discriminate].
Qed.
Lemma centred_flip (n : R) r : centred (map (fun x => n - x) r) = map Ropp (centred r).
Proof.
  destruct r as [|x r]; [reflexivity|]. unfold centred. rewrite mean_flip by discriminate. rewrite !map_map. apply map_ext. intros z. lra.
Qed.
Lemma dot_opp a : forall b, dot a (map Ropp b) = - dot a b.
Proof. induction a as [|x a IH]; intros [|z b]; try (unfold dot; cbn; lra). cbn [map]. rewrite !dot_cons, IH. lra. Qed.
Lemma dot_comm a : forall b, dot a b = dot b a.
Proof. induction a as [|x a IH]; intros [|z b]; try reflexivity. rewrite !dot_cons, IH. lra. Qed.
Lemma dot_opp2 a : dot (map Ropp a) (map Ropp a) = dot a a.
Proof. rewrite dot_opp, dot_comm, dot_opp. lra. Qed.
Lemma pearson_flip n a r : pearson a (map (fun x => n - x) r) = - pearson a r.
Proof. rewrite !pearson_dot, centred_flip, dot_opp2, dot_opp. unfold Rdiv. ring. Qed.

Lemma cov_dot a b : length a = length b -> cov (N:=RE) a b = dot (centred a) (centred b) / (INR (length a) - 1).
Proof.
  intros H. unfold cov. rewrite !nsum_total. change (@nsub RE) with Rminus. change (@nmul RE) with Rmult. change (@ndiv RE) with Rdiv. change (@none RE) with 1. unfold nofnat. change (@nofZ RE) with IZR. change (car RE) with R. rewrite <- !INR_IZR_INZ.
  change (Rtotal a / INR (length a)) with (mean_of a). change (Rtotal b / INR (length b)) with (mean_of b). rewrite dot_centred. reflexivity.
Qed.
Lemma constant_flat (l : list R) : constant (N:=RE) l = true <-> flat l.
Proof.
  destruct l as [|a l]; [split; [intros _ i j Hi; cbn in Hi; lia|reflexivity]|]. unfold constant. change (@neqb RE) with Reqb. change (car RE) with R. rewrite forallb_forall. split.
  - intros H i j Hi Hj. pose proof (H _ (at_in _ _ Hi)) as A. pose proof (H _ (at_in _ _ Hj)) as B. apply Reqb_true in A, B. congruence.
  - intros F x Hx. apply (In_nth _ _ 0) in Hx. destruct Hx as (i & Hi & <-). apply Reqb_true. apply (F 0%nat i); [cbn; lia|exact Hi].
Qed.
Lemma flat_short (l : list R) : (length l <= 1)%nat -> flat l.
Proof. intros H i j Hi Hj. replace i with 0%nat by lia. replace j with 0%nat by lia. reflexivity. Qed.

Section Query.
Variables y s : list R.
Hypothesis HL : length y = length s.
Notation ry := (map (rank y) y).
Notation rs := (map (rank s) s).

Lemma rho_facts : ~ flat y -> ~ flat s -> -1 <= rho y s <= 1 /\ (rho y s = 1 <-> same_order y s) /\ (rho y s = -1 <-> opposite_order y s).
Proof.
  intros F1 F2. rewrite <- ranks_flat in F1, F2. pose proof (centred_pos _ F1) as P1. pose proof (centred_pos _ F2) as P2.
  assert (HC : length (centred ry) = length (centred rs)) by (rewrite !centred_length, !map_length; exact HL).
  pose proof (cauchy _ _ HC P1 P2) as CS. destruct (quotient_bounds _ _ _ P1 P2 CS) as (B1 & B2 & B3).
  unfold rho. rewrite pearson_dot. split; [exact B1|]. rewrite B2, B3.
  assert (K : dot (centred ry) (centred rs) * dot (centred ry) (centred rs) = dot (centred ry) (centred ry) * dot (centred rs) (centred rs) -> forall i, (i < length y)%nat -> dot (centred rs) (centred rs) * (rank y (at_ y i) - mean_of ry) = dot (centred ry) (centred rs) * (rank s (at_ s i) - mean_of rs)).
  { intros E i Hi. pose proof (cauchy_eq _ _ HC E i) as G. rewrite centred_length, map_length in G. specialize (G Hi). rewrite !centred_at, !ranks_at in G by (rewrite ?map_length; lia). exact G. }
  split; split.
  - intros [C E]. specialize (K E). intros i j Hi Hj. rewrite <- (rank_lt y (at_ y i) (at_ y j)) by (apply at_in; lia). rewrite <- (rank_lt s (at_ s i) (at_ s j)) by (apply at_in; lia).
    pose proof (K i Hi) as Ki. pose proof (K j Hj) as Kj. revert P2 C Ki Kj. generalize (dot (centred rs) (centred rs)) (dot (centred ry) (centred rs)). intros b c P2 C Ki Kj. split; intros G.
    + apply (Rmult_lt_reg_l c); [exact C|]. assert (b * rank y (at_ y i) < b * rank y (at_ y j)) by (apply Rmult_lt_compat_l; assumption). nra.
    + apply (Rmult_lt_reg_l b); [exact P2|]. assert (c * rank s (at_ s i) < c * rank s (at_ s j)) by (apply Rmult_lt_compat_l; assumption). nra.
  - intros F. rewrite (same_ranks y s HL F). split; [exact P2|reflexivity].
  - intros [C E]. specialize (K E). intros i j Hi Hj. rewrite <- (rank_lt y (at_ y i) (at_ y j)) by (apply at_in; lia). rewrite <- (rank_lt s (at_ s j) (at_ s i)) by (apply at_in; lia).
    pose proof (K i Hi) as Ki. pose proof (K j Hj) as Kj. revert P2 C Ki Kj. generalize (dot (centred rs) (centred rs)) (dot (centred ry) (centred rs)). intros b c P2 C Ki Kj. split; intros G.
    + apply (Rmult_lt_reg_l (- c)); [lra|]. assert (b * rank y (at_ y i) < b * rank y (at_ y j)) by (apply Rmult_lt_compat_l; assumption). nra.
    + apply (Rmult_lt_reg_l b); [exact P2|]. assert (- c * rank s (at_ s j) < - c * rank s (at_ s i)) by (apply Rmult_lt_compat_l; lra). nra.
  - intros F. rewrite (opposite_ranks y s HL F), centred_flip, dot_opp2, dot_opp. split; [lra|ring].
Qed.

Lemma spearman_none : flat y \/ flat s -> spearmanr (N:=RE) y s = Ok None.
Proof.
  intros F. unfold spearmanr. change (car RE) with R. rewrite (proj2 (Nat.eqb_eq _ _) HL). destruct F as [F|F]; apply constant_flat in F; rewrite F, ?orb_true_r; reflexivity.
Qed.
Lemma spearman_some : ~ flat y -> ~ flat s -> spearmanr (N:=RE) y s = Ok (Some (rho y s : RE)).
Proof.
  intros F1 F2. destruct (rho_facts F1 F2) as [RB _]. unfold spearmanr. change (car RE) with R. rewrite (proj2 (Nat.eqb_eq _ _) HL).
  destruct (Nat.leb_spec (length y) 1) as [G|G]; [exfalso; apply F1, flat_short, G|]. cbn [orb].
  destruct (constant (N:=RE) y) eqn:E1; [exfalso; apply F1, constant_flat, E1|]. destruct (constant (N:=RE) s) eqn:E2; [exfalso; apply F2, constant_flat, E2|]. cbn [orb]. do 2 f_equal.
  rewrite <- (clip_id (rho y s) RB). f_equal. rewrite !rankdata_rank. rewrite <- ranks_flat in F1, F2. pose proof (centred_pos _ F1) as P1. pose proof (centred_pos _ F2) as P2.
  rewrite !cov_dot by (rewrite ?map_length; auto). unfold rho. rewrite pearson_dot. change (@ndiv RE) with Rdiv. change (@nsqrt RE) with sqrt. rewrite !map_length, <- HL.
  assert (N1 : 0 < INR (length y) - 1) by (apply lt_INR in G; change (INR 1) with 1 in G; lra).
  match goal with |- ?a = ?b => change (@eq R a b) end. revert P1 P2 N1. generalize (dot (centred ry) (centred ry)) (dot (centred rs) (centred rs)) (dot (centred ry) (centred rs)) (INR (length y) - 1). clear. intros A B c n HA HB Hn.
  rewrite !sqrt_div_alt by exact Hn. rewrite sqrt_mult by lra. pose proof (sqrt_sqrt n (Rlt_le _ _ Hn)) as E. pose proof (sqrt_lt_R0 A HA). pose proof (sqrt_lt_R0 B HB). pose proof (sqrt_lt_R0 n Hn).
  rewrite <- E at 1. field. repeat split; lra.
Qed.
End Query.
