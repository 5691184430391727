(** The randomization test. *)
From Coq Require Import List ZArith Bool Reals Lia Lra Permutation.
From Verif Require Import Base Lists Num M_Dataset S_Dataset S_Ensemble M_Effectiveness S_Effectiveness M_Statistical S_Statistical L_Feature4.
Import ListNotations.
Local Open Scope Z_scope.

Definition countb {A} (f : A -> bool) (l : list A) : Z := Z.of_nat (length (filter f l)).
Lemma countb_cons {A} (f : A -> bool) x l : countb f (x :: l) = (if f x then 1 else 0) + countb f l.
Proof. unfold countb. cbn [filter]. destruct (f x); cbn [length]; lia. Qed.
Lemma countb_bounds {A} (f : A -> bool) l : 0 <= countb f l <= Z.of_nat (length l).
Proof. unfold countb. pose proof (filter_length_le f l). lia. Qed.
Lemma countb_impl {A} (f g : A -> bool) l : (forall x, In x l -> f x = true -> g x = true) -> countb f l <= countb g l.
Proof.
  induction l as [|x l IH]; intros H; [cbn; lia|]. rewrite !countb_cons.
  assert (countb f l <= countb g l) by (apply IH; intros; apply H; cbn; auto).
  destruct (f x) eqn:E; [rewrite (H x) by (cbn; auto)|destruct (g x)]; lia.
Qed.
Lemma countb_all {A} (f : A -> bool) l : (forall x, In x l -> f x = true) -> countb f l = Z.of_nat (length l).
Proof.
  induction l as [|x l IH]; intros H; [reflexivity|]. rewrite countb_cons, (H x) by (cbn; auto). rewrite IH by (intros; apply H; cbn; auto).
  cbn [length]. lia.
Qed.

Section Rounded.
Variable (r : R -> R) (sum : list R -> R).
Notation F := (RF r).

(** The observed gap and that of one draw, NaN without scores. *)
Definition seen (u v : list R) : option R := osub (N:=F) (np_mean (N:=F) sum u) (np_mean (N:=F) sum v).
Definition drawn (u v : list R) (n : nat) (sel : list bool) : option R :=
  let over_n x := if (n =? 0)%nat then None else Some (r (x / r (INR n))%R) in
  let us := sum (mask_select sel u) in let vs := sum (mask_select sel v) in
  osub (N:=F) (over_n (r (r (sum u - us) + vs))%R) (over_n (r (r (sum v - vs) + us))%R).
Definition hit1 (u v : list R) n sel : bool := oleb (N:=F) (seen u v) (drawn u v n sel).
Definition hit2 (u v : list R) n sel : bool := oleb (N:=F) (option_map (nabs (N:=F)) (seen u v)) (option_map (nabs (N:=F)) (drawn u v n sel)).

Lemma step_eq (u v : list R) n sel (p : R * R) : length sel = length u -> length sel = length v ->
  randomization_step (N:=F) sum u v n (seen u v) sel p = Ok (if hit1 u v n sel then r (fst p + 1)%R else fst p, if hit2 u v n sel then r (snd p + 1)%R else snd p).
Proof.
  intros H1 H2. unfold randomization_step, np_mask. change (car F) with R.
  destruct (Nat.eqb_spec (length sel) (length u)); [|contradiction]. destruct (Nat.eqb_spec (length sel) (length v)); [|contradiction].
  cbn [bind]. unfold hit1, hit2, drawn. cbn [nadd nsub ndiv none]. unfold nofnat. cbn [RF Num.nofZ nadd nsub ndiv none nofZ]. rewrite <- INR_IZR_INZ. reflexivity.
Qed.

Lemma count_fold n (f g : nat -> bool) (step : R * R -> nat -> res (R * R)) : good_rounding r n ->
  forall l, (forall p i, In i l -> step p i = Ok (if f i then r (fst p + 1)%R else fst p, if g i then r (snd p + 1)%R else snd p)) ->
  forall x y, 0 <= x -> 0 <= y -> x + Z.of_nat (length l) <= n -> y + Z.of_nat (length l) <= n ->
  foldM step l (IZR x, IZR y) = Ok (IZR (x + countb f l), IZR (y + countb g l)).
Proof.
  intros [_ G]. induction l as [|i l IH]; intros S x y Hx Hy Lx Ly; cbn [foldM].
  - unfold countb. cbn. rewrite !Z.add_0_r. reflexivity.
  - cbn [length] in Lx, Ly. rewrite S by (cbn; auto). cbn [bind fst snd]. rewrite !countb_cons.
    assert (A : forall z, 0 <= z -> z + 1 <= n -> r (IZR z + 1) = IZR (z + 1)) by (intros; rewrite plus_IZR; change (IZR 1) with 1%R; rewrite <- (plus_IZR z 1); apply G; lia).
    rewrite !A by lia.
    replace (if f i then IZR (x + 1) else IZR x) with (IZR (x + if f i then 1 else 0)) by (destruct (f i); f_equal; lia).
    replace (if g i then IZR (y + 1) else IZR y) with (IZR (y + if g i then 1 else 0)) by (destruct (g i); f_equal; lia).
    rewrite IH; [do 2 f_equal; f_equal; lia| | | | |]; try (destruct (f i), (g i); lia).
    intros p j Hj. apply S. cbn; auto.
Qed.

Definition ordered (a b : list F) : list F * list F := if oltb (N:=F) (np_mean (N:=F) sum a) (np_mean (N:=F) sum b) then (b, a) else (a, b).

Lemma randomization_eq choice a b n : good_rounding r n -> 0 < n -> length a = length b ->
  let u := fst (ordered a b) in let v := snd (ordered a b) in
  randomization (N:=F) sum choice a b n =
  Ok (r (IZR (countb (fun i => hit1 u v (length a) (map (choice i) (seq 0 (length a)))) (seq 0 (Z.to_nat n))) / IZR n)%R,
      r (IZR (countb (fun i => hit2 u v (length a) (map (choice i) (seq 0 (length a)))) (seq 0 (Z.to_nat n))) / IZR n)%R).
Proof.
  intros G Hn L u v. unfold randomization. fold (ordered a b).
  assert (Lu : length u = length a /\ length v = length a) by (unfold u, v, ordered; destruct (oltb _ _); cbn; auto).
  destruct (ordered a b) as [u' v'] eqn:E. cbn [fst snd] in u, v. subst u v. fold (seen u' v').
  assert (C : foldM (fun p i => randomization_step (N:=F) sum u' v' (length a) (seen u' v') (map (choice i) (seq 0 (length a))) p) (seq 0 (Z.to_nat n)) (IZR 0, IZR 0)
    = Ok (IZR (0 + countb (fun i => hit1 u' v' (length a) (map (choice i) (seq 0 (length a)))) (seq 0 (Z.to_nat n))),
          IZR (0 + countb (fun i => hit2 u' v' (length a) (map (choice i) (seq 0 (length a)))) (seq 0 (Z.to_nat n))))).
  { apply (count_fold n _ _ _ G); try (rewrite ?seq_length; lia). intros p i _. apply step_eq; rewrite map_length, seq_length; change (car F) with R in *; lia. }
  etransitivity; [refine (f_equal (fun x => bind x (fun p => if n =? 0 then Err ZeroDivisionError else Ok (ndiv (n:=F) (fst p) (nofZ (n:=F) n), ndiv (n:=F) (snd p) (nofZ (n:=F) n)))) C)|].
  cbn [bind]. destruct (Z.eqb_spec n 0); [lia|]. cbn [fst snd ndiv nofZ RF]. rewrite (proj2 G n) by lia. rewrite !Z.add_0_l. reflexivity.
Qed.

Lemma mean_order a b : let o := ordered a b in match np_mean (N:=F) sum (fst o), np_mean (N:=F) sum (snd o) with Some x, Some y => (y <= x)%R | _, _ => True end.
Proof.
  unfold ordered. destruct (oltb _ _) eqn:E; cbn [fst snd]; destruct (np_mean (N:=F) sum a) as [x|], (np_mean (N:=F) sum b) as [y|]; auto; cbn in E; try discriminate.
  - apply Rltb_true in E. apply Rlt_le. exact E.
  - apply Rltb_false in E. exact E.
Qed.

Lemma nabs_real (x : R) : nabs (N:=F) x = if Rltb x 0 then r (0 - x)%R else x.
Proof. reflexivity. Qed.

Lemma hits_imply n a b : good_rounding r n -> 0 <= n -> let o := ordered a b in forall k sel, hit1 (fst o) (snd o) k sel = true -> hit2 (fst o) (snd o) k sel = true.
Proof.
  intros [G1 G2] Hn o k sel. pose proof (mean_order a b) as M. cbn zeta in M. fold o in M. unfold hit1, hit2.
  destruct (seen (fst o) (snd o)) as [x|] eqn:Es; [|cbn; discriminate]. destruct (drawn _ _ _ _) as [y|]; [|cbn; discriminate].
  cbn [option_map oleb nleb RF]. intros H. apply Rleb_true in H. apply Rleb_true.
  assert (0 <= x)%R.
  { unfold seen, osub in Es. destruct (np_mean _ (fst o)) as [p|]; [|discriminate]. destruct (np_mean _ (snd o)) as [q|]; [|discriminate].
    inversion Es. rewrite <- (G2 0) by lia. apply G1. change (IZR 0) with 0%R. lra. }
  change (car F) with R in *. unfold nabs. cbn [nltb nzero RF].
  destruct (Rltb x 0) eqn:E1; [apply Rltb_true in E1; lra|]. destruct (Rltb y 0) eqn:E2; [apply Rltb_true in E2; lra|exact H].
Qed.

Lemma C58_bounds_lemma choice a b n : good_rounding r n -> 0 < n -> length a = length b ->
  exists p1 p2, randomization (N:=F) sum choice a b n = Ok (p1, p2) /\ (0 <= p1 <= p2)%R /\ (p2 <= 1)%R.
Proof.
  intros G Hn L. rewrite (randomization_eq choice a b n G Hn L). cbn zeta. eexists. eexists. split; [reflexivity|].
  pose proof (IZR_lt _ _ Hn) as Pn. change (IZR 0) with 0%R in Pn.
  pose proof G as [G1 G2].
  assert (Z0 : r 0 = 0%R) by (apply (G2 0); lia). assert (Z1 : r 1 = 1%R) by (apply (G2 1); lia).
  split; [split|].
  - rewrite <- Z0. apply G1. apply Rmult_le_pos; [apply IZR_le; apply countb_bounds|apply Rlt_le, Rinv_0_lt_compat; lra].
  - apply G1. apply Rmult_le_compat_r; [apply Rlt_le, Rinv_0_lt_compat; lra|]. apply IZR_le. apply countb_impl.
    intros i _. apply (hits_imply n); auto. lia.
  - rewrite <- Z1. apply G1. apply Rmult_le_reg_r with (IZR n); [lra|]. unfold Rdiv. rewrite Rmult_assoc, Rinv_l, Rmult_1_r, Rmult_1_l by lra.
    apply IZR_le. eapply Z.le_trans; [apply countb_bounds|]. rewrite seq_length. lia.
Qed.

Lemma C58_identical_lemma choice a n : good_rounding r n -> 0 < n -> a <> [] -> randomization (N:=F) sum choice a a n = Ok (1, 1)%R.
Proof.
  intros G Hn Ha. rewrite (randomization_eq choice a a n G Hn eq_refl). cbn zeta.
  pose proof (IZR_lt _ _ Hn) as Pn. change (IZR 0) with 0%R in Pn. pose proof G as [G1 G2].
  assert (Eo : fst (ordered a a) = a /\ snd (ordered a a) = a) by (unfold ordered; destruct (oltb _ _); auto). destruct Eo as [E1 E2]. rewrite E1, E2.
  assert (S : forall sel, hit1 a a (length a) sel = true /\ hit2 a a (length a) sel = true).
  { intros sel. unfold hit1, hit2, seen, drawn, np_mean. change (car F) with R. destruct a as [|x a]; [contradiction|]. cbn [Nat.eqb length]. cbn [osub option_map oleb nsub nleb RF].
    assert (forall z : R, Rleb z z = true) as T by (intros; apply Rleb_true; lra). rewrite !Rminus_diag_eq by reflexivity. split; apply T. }
  rewrite !countb_all by (intros; apply S). rewrite seq_length, Z2Nat.id by lia. unfold Rdiv. rewrite Rinv_r by lra. rewrite (G2 1) by lia. reflexivity.
Qed.

Lemma C58_swap_lemma choice a b n : length a = length b -> a <> [] -> computed_mean r sum a <> computed_mean r sum b ->
  randomization (N:=F) sum choice a b n = randomization (N:=F) sum choice b a n.
Proof.
  intros L Ha Hm. unfold randomization. fold (ordered a b). fold (ordered b a).
  assert (E : ordered a b = ordered b a).
  { unfold ordered. destruct a as [|x a]; [contradiction|]. destruct b as [|y b]; [discriminate|]. cbn [np_mean oltb nltb ndiv nofnat RF].
    unfold computed_mean in Hm. rewrite !INR_IZR_INZ in Hm. unfold nofnat. cbn [nofZ RF].
    change (car F) with R. revert Hm. generalize (r (sum (x :: a) / r (IZR (Z.of_nat (length (x :: a)))))) (r (sum (y :: b) / r (IZR (Z.of_nat (length (y :: b)))))).
    intros p q Hpq. destruct (Rltb p q) eqn:E1, (Rltb q p) eqn:E2; auto.
    - apply Rltb_true in E1. apply Rltb_true in E2. lra.
    - apply Rltb_false in E1. apply Rltb_false in E2. lra. }
  rewrite E. change (@length (car F) b) with (@length R b). rewrite <- L. reflexivity.
Qed.
End Rounded.

(** Errors. *)
Section Any.
Context {N : Num.num}.
Variable sum : list N -> N.
Lemma C58_lengths_lemma choice (a b : list N) n : 0 < n -> length a <> length b -> randomization sum choice a b n = Err IndexError.
Proof.
  intros Hn L. unfold randomization. assert (E : seq 0 (Z.to_nat n) = 0%nat :: seq 1 (Z.to_nat n - 1)) by (replace (Z.to_nat n) with (S (Z.to_nat n - 1)) at 1 by lia; reflexivity).
  rewrite E. assert (S : forall u v d p, (length u <> length a \/ length v <> length a) -> randomization_step sum u v (length a) d (map (choice 0%nat) (seq 0 (length a))) p = Err IndexError).
  { intros u v d p H. unfold randomization_step, np_mask. rewrite map_length, seq_length.
    destruct (Nat.eqb_spec (length a) (length u)); cbn [bind]; auto. destruct (Nat.eqb_spec (length a) (length v)); cbn [bind]; auto. exfalso. lia. }
  destruct (oltb _ _); cbn [foldM]; rewrite S by lia; reflexivity.
Qed.
Lemma C58_zero_lemma choice (a b : list N) : randomization sum choice a b 0 = Err ZeroDivisionError.
Proof. unfold randomization. destruct (oltb _ _); reflexivity. Qed.
End Any.

(** Meaning in exact arithmetic. *)
Lemma masked_total sel u v : length sel = length u -> length u = length v -> forall s,
  (Rtotal u - Rtotal (mask_select sel u) + Rtotal (mask_select sel v)
   = Rtotal (map (fun p => if nth (fst p - s) sel false then snd (snd p) else fst (snd p)) (combine (seq s (length u)) (combine u v))))%R.
Proof.
  revert u v. induction sel as [|b sel IH]; intros [|x u] [|y v]; cbn [length]; intros H1 H2 s; try discriminate; [cbn; lra|].
  cbn [seq combine map mask_select fst snd]. rewrite Nat.sub_diag. change (nth 0 (b :: sel) false) with b.
  assert (E : Rtotal (map (fun p => if nth (fst p - s) (b :: sel) false then snd (snd p) else fst (snd p)) (combine (seq (S s) (length u)) (combine u v)))
            = Rtotal (map (fun p => if nth (fst p - S s) sel false then snd (snd p) else fst (snd p)) (combine (seq (S s) (length u)) (combine u v)))).
  { f_equal. apply map_ext_in. intros [i p] Hp. apply in_combine_l in Hp. apply in_seq in Hp. cbn [fst]. replace (i - s)%nat with (S (i - S s)) by lia. reflexivity. }
  destruct b; rewrite !Rtotal_cons, E, <- IH by lia; lra.
Qed.
Lemma exchanged_total c u v : length u = length v ->
  (Rtotal u - Rtotal (mask_select (map c (seq 0 (length u))) u) + Rtotal (mask_select (map c (seq 0 (length u))) v) = Rtotal (exchanged c u v))%R.
Proof.
  intros L. rewrite (masked_total _ u v) with (s := 0%nat) by (rewrite ?map_length, ?seq_length; auto). unfold exchanged. f_equal. apply map_ext_in.
  intros [i p] Hp. apply in_combine_l in Hp. apply in_seq in Hp. cbn [fst]. rewrite Nat.sub_0_r.
  rewrite (nth_indep _ false (c 0%nat)) by (rewrite map_length, seq_length; lia). rewrite map_nth, seq_nth by lia. reflexivity.
Qed.
Lemma exchanged_length c u v : length u = length v -> length (exchanged c u v) = length u.
Proof. intros L. unfold exchanged. rewrite map_length, !combine_length, seq_length, <- L. lia. Qed.

Lemma Rabs_nabs (x : R) : nabs (N:=RF (fun x => x)) x = Rabs x.
Proof.
  rewrite nabs_real. unfold Rabs, Rltb. destruct (Rlt_dec x 0), (Rcase_abs x); lra.
Qed.

Lemma filter_same {A} (f g : A -> bool) l : (forall x, In x l -> f x = g x) -> filter f l = filter g l.
Proof. induction l as [|x l IH]; intros H; cbn; auto. rewrite (H x), IH; cbn; auto. intros; apply H; cbn; auto. Qed.

Lemma C58_meaning_lemma (sum : list R -> R) choice a b n : (forall l, sum l = Rtotal l) -> 0 < n -> length a = length b -> a <> [] ->
  let u := better a b in let v := worse a b in
  randomization (N:=RE) sum choice a b n = Ok (one_sided choice (Z.to_nat n) u v, two_sided choice (Z.to_nat n) u v).
Proof.
  intros Hs Hn L Ha u v. change RE with (RF (fun x => x)).
  assert (G : good_rounding (fun x => x) n) by (split; auto).
  rewrite (randomization_eq (fun x => x) sum choice a b n G Hn L). cbn zeta.
  assert (Hb : b <> []) by (destruct a, b; try discriminate; contradiction).
  assert (M : forall l, l <> [] -> np_mean (N:=RF (fun x => x)) sum l = Some (mean l)).
  { intros [|x l] H; [contradiction|]. unfold np_mean, mean, nofnat. cbn [ndiv nofZ RF]. change (car (RF (fun x => x))) with R. rewrite Hs, INR_IZR_INZ. reflexivity. }
  assert (Eo : ordered (fun x => x) sum a b = (u, v)).
  { unfold ordered, u, v, better, worse. rewrite !M by auto. cbn [oltb nltb RF]. change (car (RF (fun x => x))) with R. destruct (Rltb _ _); reflexivity. }
  rewrite Eo. cbn [fst snd].
  assert (Lu : length u = length a /\ length v = length a /\ u <> [] /\ v <> []) by (unfold u, v, better, worse; destruct (Rltb _ _); auto).
  destruct Lu as (Lu & Lv & Nu & Nv).
  assert (Es : seen (fun x => x) sum u v = Some (gap u v)) by (unfold seen; rewrite !M by auto; reflexivity).
  assert (Ed : forall i, drawn (fun x => x) sum u v (length a) (map (choice i) (seq 0 (length a))) = Some (gap (exchanged (choice i) u v) (exchanged (choice i) v u))).
  { intros i. unfold drawn. rewrite !Hs.
    pose proof (exchanged_total (choice i) u v ltac:(lia)) as X1. pose proof (exchanged_total (choice i) v u ltac:(lia)) as X2. rewrite Lu in X1. rewrite Lv in X2.
    assert (Na : (length a =? 0)%nat = false) by (destruct a; [contradiction|reflexivity]). rewrite Na. cbn [osub nsub RF].
    change (car (RF (fun x => x))) with R.
    rewrite X1, X2. f_equal.
    unfold gap, mean. rewrite !exchanged_length by lia. rewrite Lu, Lv. reflexivity. }
  unfold one_sided, two_sided, share. rewrite seq_length, !INR_IZR_INZ, Z2Nat.id by lia. f_equal. f_equal.
  - unfold countb. do 4 f_equal. apply filter_same. intros i _. unfold hit1. rewrite Es, Ed. reflexivity.
  - unfold countb. do 4 f_equal. apply filter_same. intros i _. unfold hit2. rewrite Es, Ed. cbn [option_map oleb nleb RF]. rewrite !Rabs_nabs. reflexivity.
Qed.
