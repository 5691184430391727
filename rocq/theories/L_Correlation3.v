(** Proofs about rank correlations: invariances, the formula without ties, the mean over queries. *)
From Coq Require Import List ZArith Reals Bool Lia Lra Permutation FinFun.
From Verif Require Import Base Num Lists M_Dataset M_Metrics S_Dataset S_Ensemble M_Correlation S_Correlation L_Feature4 L_MetricEval L_Correlation L_Correlation2.
Import ListNotations.
Local Open Scope R_scope.

(** Transformations of the scores, in any arithmetic. *)
Section Any.
Context {N : Num.num}.
Lemma count_map {A B} (p : B -> bool) (f : A -> B) l : count_if p (map f l) = count_if (fun a => p (f a)) l.
Proof. unfold count_if. f_equal. induction l as [|a l IH]; [reflexivity|]. cbn [map filter]. destruct (p (f a)); cbn [length]; rewrite IH; reflexivity. Qed.
Lemma count_ext {A} (p p' : A -> bool) l : (forall a, In a l -> p a = p' a) -> count_if p l = count_if p' l.
Proof. intros H. unfold count_if. do 2 f_equal. apply filter_ext_in. exact H. Qed.
Lemma pairs_map {A B} (f : A -> B) l : pairs (map f l) = map (fun q => (f (fst q), f (snd q))) (pairs l).
Proof. induction l as [|a l IH]; [reflexivity|]. cbn [map pairs]. rewrite map_app, IH, !map_map. reflexivity. Qed.
Lemma pairs_in {A} (l : list A) q : In q (pairs l) -> In (fst q) l /\ In (snd q) l.
Proof. induction l as [|a l IH]; intros H; [destruct H|]. cbn [pairs] in H. apply in_app_or in H. destruct H as [H|H]; [apply in_map_iff in H; destruct H as (b & <- & Hb); cbn; auto|]. destruct (IH H). cbn; auto. Qed.
Lemma combine_map_r {A B C} (f : B -> C) (y : list A) : forall s, combine y (map f s) = map (fun p => (fst p, f (snd p))) (combine y s).
Proof. induction y as [|a y IH]; intros [|b s]; try reflexivity. cbn [combine map]. rewrite IH. reflexivity. Qed.
Lemma combine_map_l {A B C} (f : A -> C) (y : list A) : forall s : list B, combine (map f y) s = map (fun p => (f (fst p), snd p)) (combine y s).
Proof. induction y as [|a y IH]; intros [|b s]; try reflexivity. cbn [combine map]. rewrite IH. reflexivity. Qed.

Lemma kendall_keeps_lemma (f : N -> N) y s : keeps_order f s -> kendalltau y (map f s) = kendalltau y s.
Proof.
  intros K. unfold kendalltau. rewrite map_length. destruct (length y =? length s)%nat; [|reflexivity]. cbv zeta. rewrite combine_map_r, pairs_map, !count_map.
  assert (G : forall q, In q (pairs (combine y s)) -> let q' := ((fst (fst q), f (snd (fst q))), (fst (snd q), f (snd (snd q)))) in opposite q' = opposite q /\ tied_fst q' = tied_fst q /\ tied_snd q' = tied_snd q).
  { intros [[a b] [c d]] Hq. apply pairs_in in Hq. cbn [fst snd] in Hq. destruct Hq as [H1 H2]. apply in_combine_r in H1, H2. unfold opposite, tied_fst, tied_snd. cbn [fst snd].
    destruct (K b d H1 H2) as [A1 A2], (K d b H2 H1) as [B1 B2]. rewrite A1, A2, B1. auto. }
  set (h := fun q : (N * N) * (N * N) => ((fst (fst q), f (snd (fst q))), (fst (snd q), f (snd (snd q))))).
  assert (E1 : count_if (fun q => opposite (h q)) (pairs (combine y s)) = count_if opposite (pairs (combine y s))) by (apply count_ext; intros q Hq; apply (G q Hq)).
  assert (E2 : count_if (fun q => tied_fst (h q)) (pairs (combine y s)) = count_if tied_fst (pairs (combine y s))) by (apply count_ext; intros q Hq; apply (G q Hq)).
  assert (E3 : count_if (fun q => tied_snd (h q)) (pairs (combine y s)) = count_if tied_snd (pairs (combine y s))) by (apply count_ext; intros q Hq; apply (G q Hq)).
  assert (E4 : count_if (fun q => tied_fst (h q) && tied_snd (h q)) (pairs (combine y s)) = count_if (fun q => tied_fst q && tied_snd q) (pairs (combine y s)))
    by (apply count_ext; intros q Hq; destruct (G q Hq) as (_ & G2 & G3); exact (f_equal2 andb G2 G3)).
  unfold h in *. cbn [fst snd] in *. rewrite E1, E2, E3, E4. reflexivity.
Qed.
Lemma rankdata_keeps (f : N -> N) s : keeps_order f s -> rankdata (map f s) = rankdata s.
Proof.
  intros K. unfold rankdata. rewrite map_map. apply map_ext_in. intros a Ha. rewrite !count_map. f_equal; [|do 3 f_equal]; [f_equal|]; apply count_ext; intros b Hb; apply (K b a Hb Ha).
Qed.
Lemma spearman_keeps_lemma (f : N -> N) y s : keeps_order f s -> spearmanr y (map f s) = spearmanr y s.
Proof.
  intros K. unfold spearmanr. rewrite map_length, (rankdata_keeps f s K). replace (constant (map f s)) with (constant s); [reflexivity|].
  destruct s as [|a s]; [reflexivity|]. unfold constant. cbn [map]. change (f a :: map f s) with (map f (a :: s)). assert (G : forall l, (forall b, In b l -> In b (a :: s)) -> forallb (neqb a) l = forallb (neqb (f a)) (map f l)).
  { induction l as [|b l IH]; intros Hl; [reflexivity|]. cbn [forallb map]. rewrite IH by (intros c Hc; apply Hl; right; exact Hc). rewrite (proj2 (K a b (or_introl eq_refl) (Hl b (or_introl eq_refl)))). reflexivity. }
  apply G. auto.
Qed.
End Any.

(** Reordering the documents of a query. *)
Lemma count_perm {A} (p : A -> bool) l l' : Permutation l l' -> count_if p l = count_if p l'.
Proof. intros H. unfold count_if. f_equal. induction H; cbn [filter]; [reflexivity| | |congruence]; [destruct (p x); cbn [length]; lia|destruct (p x), (p y); reflexivity]. Qed.
Lemma count_app {A} (p : A -> bool) l l' : count_if p (l ++ l') = (count_if p l + count_if p l')%Z.
Proof. unfold count_if. rewrite filter_app, app_length. lia. Qed.
Lemma pairs_perm {A} (p : A * A -> bool) l l' : (forall a b, p (a, b) = p (b, a)) -> Permutation l l' -> count_if p (pairs l) = count_if p (pairs l').
Proof.
  intros S H. induction H; cbn [pairs map]; [reflexivity| | |congruence].
  - rewrite !count_app, IHPermutation. f_equal. apply count_perm, Permutation_map, H.
  - rewrite !count_app. change (pairs (y :: x :: l)) with (map (pair y) (x :: l) ++ pairs (x :: l)). unfold count_if. cbn [map filter]. rewrite (S y x). destruct (p (x, y)); cbn [length app]; lia.
Qed.
Lemma RE_tied_fst a b : tied_fst (N:=RE) (a, b) = tied_fst (N:=RE) (b, a).
Proof. unfold tied_fst. cbn [fst snd]. apply Reqb_iff. split; auto. Qed.
Lemma RE_tied_snd a b : tied_snd (N:=RE) (a, b) = tied_snd (N:=RE) (b, a).
Proof. unfold tied_snd. cbn [fst snd]. apply Reqb_iff. split; auto. Qed.
Lemma RE_opposite a b : opposite (N:=RE) (a, b) = opposite (N:=RE) (b, a).
Proof. unfold opposite. cbn [fst snd]. rewrite orb_comm. reflexivity. Qed.

Lemma kendall_perm_lemma (y s y' s' : list R) : length y = length s -> length y' = length s' -> Permutation (combine y s) (combine y' s') -> kendalltau (N:=RE) y s = kendalltau (N:=RE) y' s'.
Proof.
  intros HL HL' H. unfold kendalltau. change (car RE) with R. rewrite (proj2 (Nat.eqb_eq _ _) HL), (proj2 (Nat.eqb_eq _ _) HL').
  assert (E : length y = length y') by (apply Permutation_length in H; rewrite !combine_length in H; lia). rewrite E. cbv zeta.
  pose proof (pairs_perm (opposite (N:=RE)) _ _ RE_opposite H) as E1. pose proof (pairs_perm (tied_fst (N:=RE)) _ _ RE_tied_fst H) as E2. pose proof (pairs_perm (tied_snd (N:=RE)) _ _ RE_tied_snd H) as E3.
  pose proof (pairs_perm (fun q => tied_fst (N:=RE) q && tied_snd (N:=RE) q) _ _ (fun a b => f_equal2 andb (RE_tied_fst a b) (RE_tied_snd a b)) H) as E4.
  change (car RE) with R in *. rewrite E1, E2, E3, E4. reflexivity.
Qed.
Lemma map_fst_combine {A B} (y : list A) : forall s : list B, length y = length s -> map fst (combine y s) = y.
Proof. induction y as [|a y IH]; intros [|b s] H; try discriminate H; [reflexivity|]. cbn [combine map fst]. rewrite IH by (injection H; auto). reflexivity. Qed.
Lemma map_snd_combine {A B} (y : list A) : forall s : list B, length y = length s -> map snd (combine y s) = s.
Proof. induction y as [|a y IH]; intros [|b s] H; try discriminate H; [reflexivity|]. cbn [combine map snd]. rewrite IH by (injection H; auto). reflexivity. Qed.
Lemma flat_in (l : list R) : flat l <-> forall a b, In a l -> In b l -> a = b.
Proof.
  split; [|intros H i j Hi Hj; apply H; apply at_in; assumption]. intros F a b Ha Hb. apply (In_nth _ _ 0) in Ha, Hb. destruct Ha as (i & Hi & <-), Hb as (j & Hj & <-). exact (F i j Hi Hj).
Qed.
Lemma flat_perm (l l' : list R) : Permutation l l' -> flat l -> flat l'.
Proof. intros P. rewrite !flat_in. intros H a b Ha Hb. apply Permutation_sym in P. apply H; eapply Permutation_in; eassumption. Qed.
Lemma rank_perm (l l' : list R) v : Permutation l l' -> rank l v = rank l' v.
Proof.
  intros P. assert (E : forall p : R -> bool, length (filter p l) = length (filter p l')) by (intros p; pose proof (count_perm p _ _ P) as C; unfold count_if in C; lia).
  unfold rank, places, ties, below. rewrite !E. reflexivity.
Qed.
Lemma mean_perm l l' : Permutation l l' -> mean_of l = mean_of l'.
Proof. intros P. unfold mean_of. rewrite (Rtotal_perm _ _ P), (Permutation_length P). reflexivity. Qed.
Lemma ranks_pairs (y s : list R) : combine (map (rank y) y) (map (rank s) s) = map (fun p => (rank y (fst p), rank s (snd p))) (combine y s).
Proof. rewrite combine_map_l, combine_map_r, map_map. reflexivity. Qed.
Lemma pearson_perm (a b a' b' : list R) : length a = length b -> length a' = length b' -> Permutation (combine a b) (combine a' b') -> pearson a b = pearson a' b'.
Proof.
  intros HL HL' H. pose proof (Permutation_map fst H) as Ha. pose proof (Permutation_map snd H) as Hb. rewrite !map_fst_combine in Ha by assumption. rewrite !map_snd_combine in Hb by assumption.
  unfold pearson. cbv zeta. rewrite (mean_perm _ _ Ha), (mean_perm _ _ Hb).
  assert (D : forall (l l' : list R) m m', Permutation l l' -> Rtotal (map (fun p => (fst p - m) * (snd p - m')) (combine l l)) = Rtotal (map (fun p => (fst p - m) * (snd p - m')) (combine l' l'))).
  { intros l l' m m' P. apply Rtotal_perm, Permutation_map. assert (E : forall x : list R, combine x x = map (fun v => (v, v)) x) by (induction x as [|v x IH]; [reflexivity|cbn [combine map]; rewrite IH; reflexivity]). rewrite !E. apply Permutation_map, P. }
  rewrite (D _ _ _ _ Ha), (D _ _ _ _ Hb). f_equal. apply Rtotal_perm, Permutation_map, H.
Qed.
Lemma spearman_perm_lemma (y s y' s' : list R) : length y = length s -> length y' = length s' -> Permutation (combine y s) (combine y' s') -> spearmanr (N:=RE) y s = spearmanr (N:=RE) y' s'.
Proof.
  intros HL HL' H. pose proof (Permutation_map fst H) as Ha. pose proof (Permutation_map snd H) as Hb. rewrite !map_fst_combine in Ha by assumption. rewrite !map_snd_combine in Hb by assumption.
  destruct (constant (N:=RE) y) eqn:E1; [apply constant_flat in E1; rewrite !spearman_none by (auto; left; eauto using flat_perm); reflexivity|].
  destruct (constant (N:=RE) s) eqn:E2; [apply constant_flat in E2; rewrite !spearman_none by (auto; right; eauto using flat_perm); reflexivity|].
  assert (F1 : ~ flat y) by (intros F; apply constant_flat in F; congruence). assert (F2 : ~ flat s) by (intros F; apply constant_flat in F; congruence).
  rewrite !spearman_some; auto; [|intros F; apply F1; eapply flat_perm; [apply Permutation_sym; exact Ha|exact F]|intros F; apply F2; eapply flat_perm; [apply Permutation_sym; exact Hb|exact F]].
  do 2 f_equal. unfold rho. apply pearson_perm; rewrite ?map_length; auto. rewrite !ranks_pairs. rewrite (map_ext (fun p => (rank y (fst p), rank s (snd p))) (fun p => (rank y' (fst p), rank s' (snd p)))) by (intros p; rewrite (rank_perm _ _ _ Ha), (rank_perm _ _ _ Hb); reflexivity). apply Permutation_map, H.
Qed.

(** Reversing the order of the scores changes the sign. *)
Lemma howmany_ext n p p' : (forall i j, (i < j < n)%nat -> p i j = p' i j) -> howmany n p = howmany n p'.
Proof. intros H. unfold howmany. do 2 f_equal. apply filter_ext_in. intros [i j] Hq. apply H, positions_in, Hq. Qed.
Lemma Rltb_pair a b c d : Rltb a b = true -> Rltb c d = true -> Rltb a b = Rltb c d.
Proof. congruence. Qed.
Lemma tau_flip_lemma (y s s' : list R) : length y = length s -> length s = length s' -> opposite_order s s' -> tau y s' = - tau y s.
Proof.
  intros HL HL' F. unfold tau. cbv zeta.
  assert (S : forall i j, (i < j < length y)%nat -> (at_ s i < at_ s j /\ at_ s' j < at_ s' i) \/ (at_ s j < at_ s i /\ at_ s' i < at_ s' j) \/ (at_ s i = at_ s j /\ at_ s' i = at_ s' j)).
  { intros i j H. pose proof (F i j ltac:(lia) ltac:(lia)) as A. pose proof (F j i ltac:(lia) ltac:(lia)) as B. destruct (Rtotal_order (at_ s i) (at_ s j)) as [G|[G|G]]; [left; split; [exact G|apply A, G]|right; right|right; left; split; [exact G|apply B, G]].
    split; [exact G|]. destruct (Rtotal_order (at_ s' i) (at_ s' j)) as [K|[K|K]]; [apply B in K; lra|exact K|apply A in K; lra]. }
  rewrite (howmany_ext _ (concordant y s') (discordant y s)), (howmany_ext _ (discordant y s') (concordant y s)), (howmany_ext _ (tie_only y s') (tie_only y s)), (howmany_ext _ (tie_only s' y) (tie_only s y)).
  - replace (howmany (length y) (discordant y s) + howmany (length y) (concordant y s)) with (howmany (length y) (concordant y s) + howmany (length y) (discordant y s)) by ring. unfold Rdiv. ring.
  - intros i j H. unfold tie_only. f_equal. apply Reqb_iff. destruct (S i j H) as [[? ?]|[[? ?]|[? ?]]]; split; intros; lra.
  - intros i j H. unfold tie_only. do 2 f_equal. apply Reqb_iff. destruct (S i j H) as [[? ?]|[[? ?]|[? ?]]]; split; intros; lra.
  - intros i j H. unfold concordant, discordant. apply Rltb_iff. destruct (S i j H) as [[? ?]|[[? ?]|[? E]]]; [| |rewrite E; rewrite H0]; destruct (Rtotal_order (at_ y i) (at_ y j)) as [G|[G|G]]; try rewrite G; split; intros; nra.
  - intros i j H. unfold concordant, discordant. apply Rltb_iff. destruct (S i j H) as [[? ?]|[[? ?]|[? E]]]; [| |rewrite E; rewrite H0]; destruct (Rtotal_order (at_ y i) (at_ y j)) as [G|[G|G]]; try rewrite G; split; intros; nra.
Qed.
Lemma rho_flip_lemma (y s s' : list R) : length s = length s' -> opposite_order s s' -> rho y s' = - rho y s.
Proof. intros HL F. unfold rho. rewrite (opposite_ranks s s' HL F). apply pearson_flip. Qed.

(** Sum of the ranks. *)
Lemma two_way_total (l : list R) : forall m, Rtotal (map (fun a => below m a + ties m a / 2) l) + Rtotal (map (fun b => below l b + ties l b / 2) m) = INR (length l) * INR (length m).
Proof.
  induction l as [|a l IH]; intros m; cbn [map length].
  - change (Rtotal []) with 0. cbn [INR]. rewrite Rmult_0_l, Rplus_0_l. induction m as [|b m IHm]; [reflexivity|]. cbn [map]. rewrite Rtotal_cons, IHm. unfold below, ties. cbn. lra.
  - rewrite Rtotal_cons, S_INR. specialize (IH m).
    assert (G : Rtotal (map (fun b => below (a :: l) b + ties (a :: l) b / 2) m) = Rtotal (map (fun b => below l b + ties l b / 2) m) + (INR (length m) - below m a - ties m a / 2)); [|rewrite G; lra].
    clear IH. induction m as [|b m IHm]; [cbn; unfold below, ties; cbn; lra|]. cbn [map length]. rewrite !Rtotal_cons, IHm, S_INR. unfold below, ties. cbn [filter].
    destruct (Rsign a b) as [(H & -> & E1 & ->)|[(H & -> & E1 & ->)|(H & -> & E1 & ->)]]; rewrite E1; destruct (Rsign b a) as [(H' & _ & _ & ->)|[(H' & _ & _ & ->)|(H' & _ & _ & ->)]]; try (exfalso; lra); cbn [length]; rewrite ?S_INR; lra.
Qed.
Lemma rank_total_lemma (l : list R) : Rtotal (map (rank l) l) = INR (length l) * (INR (length l) + 1) / 2.
Proof.
  pose proof (two_way_total l l) as H. rewrite (Rtotal_ext (rank l) (fun a => (below l a + ties l a / 2) + 1 / 2)) by (intros a Ha; rewrite rank_closed by exact Ha; field).
  assert (G : forall (g : R -> R) m, Rtotal (map (fun a => g a + 1 / 2) m) = Rtotal (map g m) + INR (length m) / 2) by (intros g m; induction m as [|a m IH]; cbn [map length]; [cbn; lra|rewrite !Rtotal_cons, IH, S_INR; lra]).
  rewrite G. lra.
Qed.

(** Without ties the ranks are 1, 2, ..., n. *)
Lemma ties_nodup l v : NoDup l -> In v l -> length (filter (fun x => Reqb x v) l) = 1%nat.
Proof.
  intros ND H. induction ND as [|a l Na ND IH]; [destruct H|]. cbn [filter]. destruct (Reqb a v) eqn:E.
  - apply Reqb_true in E. subst a. cbn [length]. f_equal. assert (G : filter (fun x => Reqb x v) l = []); [|rewrite G; reflexivity].
    clear IH ND. induction l as [|b l IHl]; [reflexivity|]. cbn [filter]. destruct (Reqb b v) eqn:E; [apply Reqb_true in E; subst b; exfalso; apply Na; left; reflexivity|]. apply IHl; [intros K; apply Na; right; exact K|left; reflexivity].
  - apply Reqb_false in E. destruct H as [->|H]; [contradiction|]. apply IH, H.
Qed.
Definition place (l : list R) (v : R) : nat := length (filter (fun x => Rltb x v) l).
Lemma places_perm l : NoDup l -> Permutation (map (place l) l) (seq 0 (length l)).
Proof.
  intros ND. apply NoDup_Permutation_bis.
  - assert (G : forall m, NoDup m -> incl m l -> NoDup (map (place l) m)); [|apply G; [exact ND|apply incl_refl]].
    intros m Hm. induction Hm as [|a m Na Hm IH]; intros I; cbn [map]; [constructor|]. constructor; [|apply IH; intros x Hx; apply I; right; exact Hx]. intros K. apply in_map_iff in K. destruct K as (b & E & Hb).
    assert (Ia : In a l) by (apply I; left; reflexivity). assert (Ib : In b l) by (apply I; right; exact Hb). apply (f_equal INR) in E. change (below l b = below l a) in E.
    destruct (Rtotal_order a b) as [C|[C|C]]; [pose proof (count_split l a b C); pose proof (ties_pos l a Ia); lra|subst b; contradiction|pose proof (count_split l b a C); pose proof (ties_pos l b Ib); lra].
  - rewrite map_length, seq_length. apply le_n.
  - intros k Hk. apply in_map_iff in Hk. destruct Hk as (v & <- & Hv). apply in_seq. split; [lia|]. apply INR_lt. cbn [Nat.add]. change (below l v < INR (length l)). rewrite <- (three_counts l v). pose proof (ties_pos l v Hv). pose proof (pos_INR (length (filter (fun x => Rltb v x) l))). lra.
Qed.
Lemma squares_total (n : nat) : Rtotal (map (fun k => (INR k + 1) ^ 2) (seq 0 n)) = INR n * (INR n + 1) * (2 * INR n + 1) / 6.
Proof.
  induction n as [|n IH]; [cbn; lra|]. rewrite seq_S, map_app, Rtotal_app, IH. cbn [Nat.add map]. rewrite Rtotal_cons. change (Rtotal []) with 0. rewrite S_INR. field.
Qed.
Lemma mean_rank l : l <> [] -> mean_of (map (rank l) l) = (INR (length l) + 1) / 2.
Proof. intros H. unfold mean_of. rewrite rank_total_lemma, map_length. field. apply not_0_INR. destruct l; [contradiction|discriminate]. Qed.
Lemma variance_distinct l : l <> [] -> NoDup l -> dot (centred (map (rank l) l)) (centred (map (rank l) l)) = INR (length l) * (INR (length l) ^ 2 - 1) / 12.
Proof.
  intros NE ND. unfold centred. rewrite mean_rank by exact NE. set (n := INR (length l)). rewrite map_map.
  assert (E : map (fun x => rank l x - (n + 1) / 2) l = map (fun k => INR k + 1 - (n + 1) / 2) (map (place l) l)).
  { rewrite map_map. apply map_ext_in. intros v Hv. rewrite rank_closed by exact Hv. unfold ties. rewrite ties_nodup by assumption. unfold below, place. cbn [INR]. field. }
  rewrite E. assert (D : forall x, dot x x = Rtotal (map (fun v => v ^ 2) x)) by (induction x as [|v x IH]; [reflexivity|rewrite dot_cons, IH; cbn [map]; rewrite Rtotal_cons; ring]).
  rewrite D, map_map. rewrite (Rtotal_perm _ _ (Permutation_map _ (places_perm l ND))).
  assert (S : forall (c : R) m, Rtotal (map (fun k => (INR k + 1 - c) ^ 2) m) = Rtotal (map (fun k => (INR k + 1) ^ 2) m) - 2 * c * Rtotal (map (fun k => INR k + 1) m) + INR (length m) * c ^ 2).
  { intros c m. induction m as [|k m IH]; [cbn; ring|]. cbn [map length]. rewrite !Rtotal_cons, IH, S_INR. ring. }
  rewrite S, squares_total, seq_length. assert (L : Rtotal (map (fun k => INR k + 1) (seq 0 (length l))) = n * (n + 1) / 2).
  { rewrite (map_ext (fun k => INR k + 1) (fun k => 1 + INR k)) by (intros; ring). rewrite seq_total. cbn [INR]. unfold n. field. }
  rewrite L. fold n. field.
Qed.
Lemma rho_distinct_lemma (y s : list R) : length y = length s -> (2 <= length y)%nat -> NoDup y -> NoDup s -> rho y s = rho_distinct y s.
Proof.
  intros HL H2 Ny Ns. assert (Yn : y <> []) by (intros ->; cbn in H2; lia). assert (Sn : s <> []) by (intros ->; cbn in HL; lia).
  unfold rho, rho_distinct. cbv zeta. rewrite pearson_dot. pose proof (variance_distinct y Yn Ny) as Vy. pose proof (variance_distinct s Sn Ns) as Vs. rewrite <- HL in Vs. rewrite Vy, Vs.
  assert (D : Rtotal (map (fun p => (rank y (fst p) - rank s (snd p)) ^ 2) (combine y s)) = dot (centred (map (rank y) y)) (centred (map (rank y) y)) - 2 * dot (centred (map (rank y) y)) (centred (map (rank s) s)) + dot (centred (map (rank s) s)) (centred (map (rank s) s))).
  { unfold centred. rewrite (mean_rank y Yn), (mean_rank s Sn), <- HL. generalize ((INR (length y) + 1) / 2). intros m. rewrite !map_map. generalize (rank y) (rank s). intros f g. clear - HL. revert s HL. induction y as [|a y' IH]; intros [|b s'] HL; try discriminate HL; [cbn; ring|]. cbn [combine map fst snd].
    rewrite !dot_cons, Rtotal_cons, IH by (injection HL; auto). ring. }
  rewrite Vy, Vs in D. set (n := INR (length y)) in *. set (c := dot _ _) in *. assert (Hn : 2 <= n) by (apply le_INR in H2; cbn in H2; unfold n; lra).
  set (V := n * (n ^ 2 - 1) / 12) in *. assert (HV : 0 < V) by (unfold V; nra). rewrite sqrt_square by lra. rewrite D.
  replace (n * (n ^ 2 - 1)) with (12 * V) by (unfold V; field). field. lra.
Qed.

(** Mean over the queries. *)
Lemma correlation_eval_lemma (N : Num.num) (f : list N -> list N -> res (option N)) nf X y ids (d : dataset N) s :
  built nf X y ids d -> length s = length ids ->
  correlation_eval f d s = do v <- mapM (fun q => f (select q ids y) (select q ids s)) (ds_qids d);
    let w := map (option_map nf32) v in
    Ok (match defined w with [] => None | _ => Some (ndiv (nsum (defined w)) (nofnat (length (defined w)))) end, w).
Proof. intros B HL. unfold correlation_eval. rewrite (queries_select nf X y ids d s B HL), mapM_map. reflexivity. Qed.

Section Mean.
Variable f : list R -> list R -> res (option R).
Variable g : list R -> list R -> R.
Hypothesis Hnone : forall y s, length y = length s -> flat y \/ flat s -> f y s = Ok None.
Hypothesis Hsome : forall y s, length y = length s -> ~ flat y -> ~ flat s -> f y s = Ok (Some (g y s)).
Hypothesis Hg : forall y s, length y = length s -> ~ flat y -> ~ flat s -> -1 <= g y s <= 1 /\ (g y s = 1 <-> same_order y s).

Lemma mean_bounds (w : list R) : w <> [] -> (forall a, In a w -> -1 <= a <= 1) -> -1 <= Rtotal w / INR (length w) <= 1 /\ (Rtotal w / INR (length w) = 1 <-> forall a, In a w -> a = 1).
Proof.
  intros NE B. assert (N0 : 0 < INR (length w)) by (apply lt_0_INR; destruct w; [contradiction|cbn; lia]).
  assert (G : - INR (length w) <= Rtotal w <= INR (length w) /\ (Rtotal w = INR (length w) <-> forall a, In a w -> a = 1)).
  { clear NE N0. induction w as [|a w IH]; [cbn; split; [lra|split; [intros _ ? []|reflexivity]]|]. cbn [length]. rewrite Rtotal_cons, S_INR. destruct IH as [I1 I2]; [intros b Hb; apply B; right; exact Hb|]. pose proof (B a (or_introl eq_refl)) as Ba.
    split; [lra|]. split.
    - intros E b [<-|Hb]; [lra|]. apply I2; [lra|exact Hb].
    - intros H. rewrite (H a (or_introl eq_refl)), (proj2 I2) by (intros b Hb; apply H; right; exact Hb). lra. }
  destruct G as [G1 G2]. split.
  - split; [apply (Rmult_le_reg_r (INR (length w))); [exact N0|]|apply (Rmult_le_reg_r (INR (length w))); [exact N0|]]; unfold Rdiv; rewrite Rmult_assoc, Rinv_l by lra; lra.
  - rewrite <- G2. split; intros H; [|rewrite H; field; lra]. assert (E : Rtotal w = Rtotal w / INR (length w) * INR (length w)) by (field; lra). rewrite E, H. ring.
Qed.
Lemma flat_dec (l : list R) : flat l \/ ~ flat l.
Proof. destruct (constant (N:=RE) l) eqn:E; [left; apply constant_flat, E|right; intros F; apply constant_flat in F; congruence]. Qed.
Lemma queries_mean (ys ss : Z -> list R) (qs : list Z) : (forall q, length (ys q) = length (ss q)) ->
  exists v, mapM (fun q => f (ys q) (ss q)) qs = Ok v /\ length v = length qs /\
    (forall a, In a (defined v) -> -1 <= a <= 1) /\
    (defined v = [] <-> forall q, In q qs -> flat (ys q) \/ flat (ss q)) /\
    ((forall a, In a (defined v) -> a = 1) <-> forall q, In q qs -> flat (ys q) \/ flat (ss q) \/ same_order (ys q) (ss q)).
Proof.
  intros HL. induction qs as [|q qs (v & IH & I1 & I2 & I3 & I4)].
  - exists []. cbn. repeat split; auto; intros; contradiction.
  - cbn [mapM]. assert (C : flat (ys q) \/ flat (ss q) \/ ~ flat (ys q) /\ ~ flat (ss q)) by (destruct (flat_dec (ys q)), (flat_dec (ss q)); auto). 
    assert (C' : (flat (ys q) \/ flat (ss q)) \/ ~ flat (ys q) /\ ~ flat (ss q)) by tauto. clear C. destruct C' as [C|[C1 C2]].
    + rewrite (Hnone _ _ (HL q) C). cbn [bind]. rewrite IH. cbn [bind]. exists (None :: v). unfold defined in *. cbn [map concat app length]. split; [reflexivity|]. split; [lia|]. split; [exact I2|]. split.
      * rewrite I3. split; [intros H q' [<-|Hq]; [exact C|apply H, Hq]|intros H q' Hq; apply H; right; exact Hq].
      * rewrite I4. split; [intros H q' [<-|Hq]; [tauto|apply H, Hq]|intros H q' Hq; apply H; right; exact Hq].
    + rewrite (Hsome _ _ (HL q) C1 C2). cbn [bind]. rewrite IH. cbn [bind]. exists (Some (g (ys q) (ss q)) :: v). unfold defined in *. cbn [map concat app length]. destruct (Hg _ _ (HL q) C1 C2) as [G1 G2]. split; [reflexivity|]. split; [lia|]. split; [|split].
      * intros a [<-|Ha]; [exact G1|apply I2, Ha].
      * split; [discriminate|]. intros H. destruct (H q (or_introl eq_refl)); contradiction.
      * split.
        -- intros H q' [<-|Hq]; [right; right; apply G2, H; left; reflexivity|]. apply I4; [|exact Hq]. intros a Ha. apply H. right. exact Ha.
        -- intros H a [<-|Ha]; [apply G2; destruct (H q (or_introl eq_refl)) as [K|[K|K]]; [contradiction|contradiction|exact K]|]. apply (proj2 I4); [|exact Ha]. intros q' Hq. apply H. right. exact Hq.
Qed.
Lemma mean_lemma nf X y ids (d : dataset RE) s : built nf X y ids d -> length s = length ids ->
  exists m v, correlation_eval (N:=RE) f d s = Ok (m, v) /\ length v = n_queries d /\
    (m = None <-> forall q, In q (ds_qids d) -> flat (select q ids y) \/ flat (select q ids s)) /\
    forall a, m = Some a -> -1 <= a <= 1 /\ (a = 1 <-> forall q, In q (ds_qids d) -> flat (select q ids y) \/ flat (select q ids s) \/ same_order (select q ids y) (select q ids s)).
Proof.
  intros B HL. rewrite (correlation_eval_lemma RE f nf X y ids d s B HL). pose proof B as (Hy & _).
  destruct (queries_mean (fun q => select q ids y) (fun q => select q ids s) (ds_qids d)) as (v & E & L & H1 & H2 & H3); [intros q; apply select_length; assumption|].
  change (car RE) with R in *. rewrite E. cbn [bind]. cbv zeta. assert (Ev : map (option_map (nf32 (n:=RE))) v = v) by (rewrite <- (map_id v) at 2; apply map_ext; intros [a|]; reflexivity).
  change (car RE) with R in *. rewrite Ev. eexists. exists v. split; [reflexivity|]. split; [exact L|]. destruct (defined v) as [|b w] eqn:D.
  - split; [split; [intros _; apply H2; reflexivity|reflexivity]|discriminate].
  - split; [split; [discriminate|intros H; apply H2 in H; discriminate]|]. intros a Ha. assert (Em : a = Rtotal (b :: w) / INR (length (b :: w))).
    { injection Ha as Ha. rewrite <- Ha, nsum_total. unfold nofnat. rewrite INR_IZR_INZ. reflexivity. }
    rewrite Em. clear Em Ha.
    destruct (mean_bounds (b :: w)) as [M1 M2]; [discriminate|exact H1|]. split; [exact M1|]. rewrite M2. exact H3.
Qed.
End Mean.
