(** Proofs about feature importance: counts, and absence of faults, in any arithmetic. *)
From Coq Require Import List ZArith Bool Lia Permutation Arith.
From Verif Require Import Base Num Lists M_Dataset M_Ensemble S_Ensemble L_Ensemble L_Loaders M_Topology L_Topology M_Feature S_Feature L_Feature L_Feature2.
Import ListNotations.
Local Open Scope Z_scope.

Lemma nth_upd {A} (l : list A) i j v d : nth j (upd l i v) d = if ((i =? j) && (j <? length l))%nat then v else nth j l d.
Proof.
  revert i j. induction l as [|a l IH]; intros i j.
  - cbn [upd length]. destruct j; rewrite andb_false_r; reflexivity.
  - destruct i as [|i], j as [|j]; cbn [upd nth length]; try reflexivity. rewrite IH. reflexivity.
Qed.

Section Perm.
Context {N : num} (rows : list (list N)).
Definition alike (p q : Z * list Z * list Z) : Prop :=
  fst (fst p) = fst (fst q) /\ Permutation (snd (fst p)) (snd (fst q)) /\ Permutation (snd p) (snd q).
Lemma visited_perm (t : tree Z N) : forall M M', Permutation M M' -> Forall2 alike (visited rows t M) (visited rows t M').
Proof.
  induction t as [i v|i f thr l IHl r IHr]; intros M M' P; cbn [visited]; [constructor|].
  assert (PL : Permutation (lefts rows f thr M) (lefts rows f thr M')) by (apply Permutation_filter; exact P).
  assert (PR : Permutation (rights rows f thr M) (rights rows f thr M')) by (apply Permutation_filter; exact P).
  constructor; [split; [reflexivity|split; assumption]|].
  rewrite (Permutation_length PL), (Permutation_length PR).
  apply Forall2_app; [destruct (2 <=? length (lefts rows f thr M'))%nat|destruct (2 <=? length (rights rows f thr M'))%nat]; try constructor; auto.
Qed.
Lemma visits_alike f v v' : Forall2 alike v v' -> visits_of f v = visits_of f v'.
Proof.
  intros H. unfold visits_of. f_equal. induction H as [|p q v v' [E _] _ IH]; [reflexivity|]. cbn [filter]. rewrite E.
  destruct (fst (fst q) =? f); cbn [length]; rewrite IH; reflexivity.
Qed.
Lemma visits_cons f p v : visits_of f (p :: v) = (if fst (fst p) =? f then 1 else 0) + visits_of f v.
Proof. unfold visits_of. cbn [filter]. destruct (fst (fst p) =? f); cbn [length]; lia. Qed.
Lemma visits_app f v w : visits_of f (v ++ w) = visits_of f v + visits_of f w.
Proof. unfold visits_of. rewrite filter_app, app_length. lia. Qed.
End Perm.

Section Counts.
Context {N : num} (red : list N -> N).
Variable (rows : list (list N)) (nf : nat) (yt : list N).
Implicit Type t : tree Z N.
Notation run := (run red rows yt).

(** Unfolding [visited] along a run. *)
Lemma visited_run t f thr l r i M L R : t = Node i f thr l r -> Permutation M (L ++ R) ->
  (forall j, In j L -> goes_left rows f thr j = true) -> (forall j, In j R -> goes_left rows f thr j = false) ->
  Forall2 alike (visited rows t M) ((f, L, R) :: (if vis l L then visited rows l L else []) ++ (if vis r R then visited rows r R else [])).
Proof.
  intros -> P HL HR. destruct (split_perm rows f thr M L R P HL HR) as [PL PR]. cbn [visited].
  constructor; [split; [reflexivity|split; assumption]|].
  rewrite (Permutation_length PL), (Permutation_length PR). apply Forall2_app.
  - unfold vis. destruct l as [j v|j g th ll lr]; cbn [is_split andb].
    + destruct (2 <=? length L)%nat; constructor.
    + destruct (2 <=? length L)%nat; [apply visited_perm; exact PL|constructor].
  - unfold vis. destruct r as [j v|j g th ll lr]; cbn [is_split andb].
    + destruct (2 <=? length R)%nat; constructor.
    + destruct (2 <=? length R)%nat; [apply visited_perm; exact PR|constructor].
Qed.

Lemma run_cnt t M s s' : run t M s s' -> Forall (fun f => 0 <= f < Z.of_nat nf) (splits t) -> length (f_cnt s) = nf ->
  (forall g, 0 <= nth g (f_cnt s) 0 < 2 ^ 16) ->
  length (f_cnt s') = nf /\
  (forall g, 0 <= g < Z.of_nat nf -> nth (Z.to_nat g) (f_cnt s') 0 = wrap_u 16 (nth (Z.to_nat g) (f_cnt s) 0 + visits_of g (visited rows t M))) /\
  (forall g, 0 <= nth g (f_cnt s') 0 < 2 ^ 16).
Proof.
  induction 1 as [i f thr l r M L R s s1 s2 s3 P ND HL HR HST Rr1 IHr Rr2 Rl1 IHl Rl2]. intros Hfs Hlen Hb.
  cbn [splits] in Hfs. inversion Hfs as [|? ? Hf Hfs']; subst. apply Forall_app in Hfs'. destruct Hfs' as [HfL HfR].
  destruct HST as [C1 _].
  assert (L1 : length (f_cnt s1) = length (f_cnt s)) by (rewrite C1; apply upd_length).
  assert (W : forall x, 0 <= wrap_u 16 x < 2 ^ 16) by (intro x; unfold wrap_u; apply Z.mod_pos_bound; reflexivity).
  assert (B1 : forall g, 0 <= nth g (f_cnt s1) 0 < 2 ^ 16).
  { intro g. rewrite C1, nth_upd. destruct ((Z.to_nat f =? g) && (g <? length (f_cnt s)))%nat; [apply W|apply Hb]. }
  assert (R2 : length (f_cnt s2) = length (f_cnt s) /\
    (forall g, 0 <= g < Z.of_nat (length (f_cnt s)) -> nth (Z.to_nat g) (f_cnt s2) 0 = wrap_u 16 (nth (Z.to_nat g) (f_cnt s1) 0 + (if vis r R then visits_of g (visited rows r R) else 0))) /\
    (forall g, 0 <= nth g (f_cnt s2) 0 < 2 ^ 16)).
  { destruct (vis r R).
    - apply (IHr eq_refl HfR L1 B1).
    - rewrite (Rr2 eq_refl). split; [exact L1|]. split; [|exact B1]. intros g _. unfold wrap_u. rewrite Z.add_0_r, Z.mod_small by apply B1. reflexivity. }
  destruct R2 as [L2 [V2 B2]].
  assert (R3 : length (f_cnt s3) = length (f_cnt s) /\
    (forall g, 0 <= g < Z.of_nat (length (f_cnt s)) -> nth (Z.to_nat g) (f_cnt s3) 0 = wrap_u 16 (nth (Z.to_nat g) (f_cnt s2) 0 + (if vis l L then visits_of g (visited rows l L) else 0))) /\
    (forall g, 0 <= nth g (f_cnt s3) 0 < 2 ^ 16)).
  { destruct (vis l L).
    - apply (IHl eq_refl HfL L2 B2).
    - rewrite (Rl2 eq_refl). split; [exact L2|]. split; [|exact B2]. intros g _. unfold wrap_u. rewrite Z.add_0_r, Z.mod_small by apply B2. reflexivity. }
  destruct R3 as [L3 [V3 B3]].
  split; [exact L3|]. split; [|exact B3]. intros g Hg. rewrite (V3 g Hg), (V2 g Hg).
  rewrite (visits_alike g _ _ (visited_run _ f thr l r i M L R eq_refl P HL HR)).
  rewrite visits_cons, visits_app. cbn [fst]. rewrite C1, nth_upd.
  assert (E : ((Z.to_nat f =? Z.to_nat g) && (Z.to_nat g <? length (f_cnt s)))%nat = (f =? g)).
  { destruct (Nat.eqb_spec (Z.to_nat f) (Z.to_nat g)), (Nat.ltb_spec (Z.to_nat g) (length (f_cnt s))), (Z.eqb_spec f g); try reflexivity; lia. }
  rewrite E. unfold wrap_u.
  replace (visits_of g (if vis l L then visited rows l L else [])) with (if vis l L then visits_of g (visited rows l L) else 0) by (destruct (vis l L); reflexivity).
  replace (visits_of g (if vis r R then visited rows r R else [])) with (if vis r R then visits_of g (visited rows r R) else 0) by (destruct (vis r R); reflexivity).
  rewrite Zplus_mod_idemp_l, <- Z.add_assoc.
  destruct (Z.eqb_spec f g) as [->|]; [rewrite Zplus_mod_idemp_l|]; f_equal; lia.
Qed.
End Counts.

Section Tree.
Context {N : num} (red : list N -> N).
Implicit Type t : tree Z N.

Definition targets (y yp : list N) : list N := map (fun p => nf32 (nsub (fst p) (snd p))) (combine y yp).
Definition start_state (rows : list (list N)) (yt imp : list N) (cnt : list Z) : fstate (N:=N) :=
  mkF (zrange 0 (Z.of_nat (length rows))) (repeat (nf32 (ndiv (nf32 (red yt)) (nofZ (Z.of_nat (length rows))))) (length rows)) imp cnt.

Lemma mapM_two (f : N -> N -> N) (a b : list N) k : length a = k -> length b = k ->
  mapM (fun i => do x <- mem_get a i; do z <- mem_get b i; Ok (f x z)) (zrange 0 (Z.of_nat k)) = Ok (map (fun p => f (fst p) (snd p)) (combine a b)).
Proof.
  intros Ha Hb. rewrite (mapM_ok _ (fun i => f (nth (Z.to_nat i) a nzero) (nth (Z.to_nat i) b nzero))).
  - f_equal. apply nth_error_ext'. intro j. rewrite zrange_seq, map_map, !nth_error_map', nth_error_seq.
    destruct (Nat.ltb_spec j k) as [H|H]; cbn [option_map].
    + rewrite Nat.add_0_l, Nat2Z.id. rewrite (combine_nth_error a b j (nth j a nzero) (nth j b nzero)); [reflexivity| |]; apply nth_error_nth'; lia.
    + replace (nth_error (combine a b) j) with (@None (N * N)); [reflexivity|]. symmetry. apply nth_error_None. rewrite combine_length. lia.
  - intros i Hi. apply in_zrange in Hi.
    rewrite (mem_get_zget a i (nth (Z.to_nat i) a nzero)) by (apply zget_some_nth; lia). cbn [bind].
    rewrite (mem_get_zget b i (nth (Z.to_nat i) b nzero)) by (apply zget_some_nth; lia). reflexivity.
Qed.

Lemma size_total (ts : list (tree Z N)) t : In t ts -> (size t <= total_size ts)%nat.
Proof.
  unfold total_size. induction ts as [|u ts IH]; intros H; [destruct H|]. cbn [map].
  change (list_sum (size u :: map size ts)) with (size u + list_sum (map size ts))%nat. destruct H as [->|H]; [lia|]. specialize (IH H). lia.
Qed.

Lemma tree_ok (e : ensemble N) ts ws rows nf k t w y yp imp cnt : laid_out e ts ws -> nth_error ts k = Some t -> nth_error ws k = Some w ->
  fits rows nf -> length y = length rows -> length yp = length rows -> length imp = nf -> length cnt = nf -> visitable rows nf t ->
  exists s, importance_tree red e (concat rows) y (Z.of_nat nf) (Z.of_nat (length rows)) (Z.of_nat k) imp cnt yp =
    Ok (f_imp s, f_cnt s,
        map (fun p => nf32 (nadd (fst p) (snd p))) (combine yp (map (fun v => nf32 (nmul v w)) (f_yt s))),
        map (fun v => nf32 (nmul v w)) (f_yt s)) /\
    run red rows (targets y yp) t (zrange 0 (Z.of_nat (length rows))) (start_state rows (targets y yp) imp cnt) s /\
    sized rows nf s /\ exists M, f_si s = M /\ Permutation (zrange 0 (Z.of_nat (length rows))) M.
Proof.
  intros [HE [_ [_ [HLl _]]]] Ht Hw [Hne [Hrows [Hsm Hfl]]] Hy Hyp Himp Hcnt [Hsp [Hfs Hfgl]]. unfold importance_tree.
  rewrite (mapM_two (fun a b => nf32 (nsub a b)) y yp (length rows) Hy Hyp). cbn [bind]. fold (targets y yp).
  destruct HE as [_ [HR [HW [_ HRep]]]].
  assert (Eroot : mem_get (e_root e) (Z.of_nat k) = Ok (mark t)).
  { apply mem_get_zget. rewrite zget_nth, HR, nth_error_map', Ht. reflexivity. }
  rewrite Eroot. cbn [bind].
  rewrite Forall_forall in HRep. pose proof (HRep t (nth_error_In _ _ Ht)) as Hrep.
  assert (Hn : (1 <= length rows)%nat) by (destruct rows; [contradiction|cbn [length]; lia]).
  assert (Hty : length (targets y yp) = length rows) by (unfold targets; rewrite map_length, combine_length; lia).
  assert (Hs0 : sized rows nf (start_state rows (targets y yp) imp cnt)).
  { unfold sized, start_state. cbn [f_si f_yt f_imp f_cnt]. rewrite repeat_length, zrange_length. repeat split; try assumption. lia. }
  destruct (loop_ok red e rows nf (targets y yp) Hrows Hsm Hfl Hty t Hrep Hsp Hfs (start_state rows (targets y yp) imp cnt) []
              (zrange 0 (Z.of_nat (length rows))) [] (S (length (e_left e))) true Hs0) as [s [j [_ [E [Hrun [Hs [M [HM PM]]]]]]]].
  - rewrite app_nil_r. reflexivity.
  - intro C. apply (f_equal (@length Z)) in C. rewrite zrange_length in C. cbn [length] in C. lia.
  - apply zrange_nodup.
  - intros i Hi. apply in_zrange in Hi. exact Hi.
  - reflexivity.
  - exact Hfgl.
  - rewrite HLl. pose proof (size_total ts t (nth_error_In _ _ Ht)). lia.
  - exists s. specialize (E []). cbn [length] in E. rewrite zrange_length in E.
    unfold start_state in E. rewrite Nat2Z.id.
    replace (u32 (Z.of_nat (length rows) - 1)) with (Z.of_nat 0 + Z.of_nat (Z.to_nat (Z.of_nat (length rows) - 0)) - 1) by (rewrite u32_small; lia).
    match goal with |- context [mkQ (mark t) 0 ?z] => change (mkQ (mark t) 0 z) with (mkQ (mark t) (Z.of_nat 0) z) end.
    rewrite E.
    assert (Ev : forall fu, visit_all red fu e (concat rows) (Z.of_nat nf) (Z.of_nat (length rows)) (targets y yp) s [] = Ok s) by (intros [|fu]; reflexivity).
    rewrite Ev. cbn [bind].
    assert (Ew : mem_get (e_weight e) (Z.of_nat k) = Ok w) by (apply mem_get_zget; rewrite zget_nth, HW; exact Hw).
    rewrite Ew. cbn [bind]. destruct Hs as [S1 [S2 [S3 S4]]].
    rewrite (mapM_two (fun a b => nf32 (nadd a b)) yp _ (length rows) Hyp) by (rewrite map_length; exact S2). cbn [bind].
    split; [reflexivity|]. split; [exact Hrun|]. split; [repeat split; assumption|]. exists (f_si s). split; [reflexivity|].
    rewrite HM, app_nil_r. exact PM.
Qed.
End Tree.
