(** Proofs about feature importance: faults, the sum of the importances, the square root and the normalisation. *)
From Coq Require Import List ZArith Bool Lia Lra Reals Permutation Arith.
From Verif Require Import Base Num Lists M_Dataset M_Ensemble S_Ensemble L_Ensemble L_Ensemble2 L_Ensemble3 L_Loaders M_Topology L_Topology M_Feature S_Feature L_Feature L_Feature2 L_Feature3 L_Feature4 L_Feature5.
Import ListNotations.
Local Open Scope Z_scope.

Section Faults.
Context {N : Num.num} (red : list N -> N).

Lemma mem_get_over {A} (l : list A) i : Z.of_nat (length l) <= i -> mem_get l i = Err MemFault.
Proof. intros H. unfold mem_get, zget. destruct (Z.ltb_spec i 0); [reflexivity|]. destruct (nth_error l (Z.to_nat i)) eqn:E; [|reflexivity]. exfalso. assert (nth_error l (Z.to_nat i) <> None) by congruence. apply nth_error_Some in H1. lia. Qed.
Lemma mem_get_err {A} (l : list A) i : (exists v, mem_get l i = Ok v) \/ mem_get l i = Err MemFault.
Proof. unfold mem_get. destruct (zget l i); [left; eexists; reflexivity|right; reflexivity]. Qed.
Lemma mem_set_err {A} (l : list A) i v : (exists l', mem_set l i v = Ok l') \/ mem_set l i v = Err MemFault.
Proof. unfold mem_set. destruct ((i <? 0) || (Z.of_nat (length l) <=? i)); [right; reflexivity|left; eexists; reflexivity]. Qed.

Lemma gain_runs_off (si : list Z) yt end_ ml mr : forall fuel i yp acc, Z.of_nat (length si) < 2 ^ 32 - 1 -> 0 <= i <= Z.of_nat (length si) ->
  (length si - Z.to_nat i < fuel)%nat -> gain_loop fuel si yt (2 ^ 32 - 1) end_ ml mr i yp acc = Err MemFault (A := list N * list N).
Proof.
  induction fuel as [|fuel IH]; intros i yp acc Hs Hi Hf; [lia|]. cbn [gain_loop].
  destruct (Z.ltb_spec (2 ^ 32 - 1) i); [lia|].
  destruct (Z.eq_dec i (Z.of_nat (length si))) as [->|Hne]; [rewrite mem_get_over by lia; reflexivity|].
  destruct (mem_get_err si i) as [[inst ->]| ->]; [|reflexivity]. cbn [bind].
  destruct (mem_get_err yt inst) as [[v ->]| ->]; [|reflexivity]. cbn [bind].
  destruct (mem_get_err yp inst) as [[p ->]| ->]; [|reflexivity]. cbn [bind].
  destruct (mem_set_err yp inst (if i <=? u32 end_ then ml else mr)) as [[yp' ->]| ->]; [|reflexivity]. cbn [bind].
  apply IH; [exact Hs| |]; rewrite u32_small by lia; lia.
Qed.

(** A segment from 0 to 2^32 - 1 is never visited without a fault. *)
Lemma whole_range_faults (e : ensemble N) X nf n yt s i : Z.of_nat (length (f_si s)) < 2 ^ 32 - 1 ->
  visit red e X nf n yt s (mkQ i 0 (2 ^ 32 - 1)) = Err MemFault.
Proof.
  intros Hs. unfold visit. cbn [q_id q_start q_end].
  destruct (mem_get_err (e_feature e) i) as [[f ->]| ->]; [|reflexivity]. cbn [bind].
  destruct (mem_get_err (e_value e) i) as [[thr ->]| ->]; [|reflexivity]. cbn [bind].
  destruct (mem_get_err (f_cnt s) f) as [[c ->]| ->]; [|reflexivity]. cbn [bind].
  destruct (mem_set_err (f_cnt s) f (wrap_u 16 (c + 1))) as [[cnt ->]| ->]; [|reflexivity]. cbn [bind].
  change (i32 0) with 0. change (i32 (2 ^ 32 - 1)) with (-1).
  assert (E : partition (length (f_si s)) X nf f thr yt (f_si s) 0 (-1) nzero nzero = Ok (f_si s, -1, nzero, nzero)).
  { destruct (f_si s); reflexivity. }
  rewrite E. cbn [bind]. rewrite gain_runs_off; [reflexivity|exact Hs|lia|lia].
Qed.

Lemma mem_set_length {A} (l : list A) i v l' : mem_set l i v = Ok l' -> length l' = length l.
Proof. unfold mem_set. destruct ((i <? 0) || (Z.of_nat (length l) <=? i)); [discriminate|]. intros E. injection E as <-. apply upd_length. Qed.
Lemma partition_length (X : list N) nf f thr yt : forall fuel si a b ml mr si' end_ sl sr,
  partition fuel X nf f thr yt si a b ml mr = Ok (si', end_, sl, sr) -> length si' = length si.
Proof.
  induction fuel as [|fuel IH]; intros si a b ml mr si' end_ sl sr; cbn [partition].
  - destruct (b <? a); [|discriminate]. intros E. injection E as <- _ _ _. reflexivity.
  - destruct (b <? a); [intros E; injection E as <- _ _ _; reflexivity|].
    destruct (mem_get si a) as [inst|]; [|discriminate]. cbn [bind]. destruct (mem_get X _) as [x|]; [|discriminate]. cbn [bind].
    destruct (mem_get yt inst) as [v|]; [|discriminate]. cbn [bind].
    destruct (nleb x thr); [apply IH|]. destruct (swap si a b) as [si1|] eqn:Q; [|discriminate]. cbn [bind].
    assert (L1 : length si1 = length si).
    { unfold swap in Q. destruct (mem_get si a) as [u|]; [|discriminate]. cbn [bind] in Q. destruct (mem_get si b) as [w|]; [|discriminate]. cbn [bind] in Q.
      destruct (mem_set si a w) as [l1|] eqn:Q1; [|discriminate]. cbn [bind] in Q. rewrite (mem_set_length _ _ _ _ Q). apply (mem_set_length _ _ _ _ Q1). }
    intros E. rewrite (IH _ _ _ _ _ _ _ _ _ E). exact L1.
Qed.
Lemma visit_length (e : ensemble N) X nf n yt s q s1 pushed : visit red e X nf n yt s q = Ok (s1, pushed) -> length (f_si s1) = length (f_si s).
Proof.
  unfold visit. destruct (mem_get (e_feature e) (q_id q)) as [f|]; [|discriminate]. cbn [bind].
  destruct (mem_get (e_value e) (q_id q)) as [thr|]; [|discriminate]. cbn [bind].
  destruct (mem_get (f_cnt s) f) as [c|]; [|discriminate]. cbn [bind].
  destruct (mem_set (f_cnt s) f _) as [cnt|]; [|discriminate]. cbn [bind].
  destruct (partition _ X nf f thr yt (f_si s) _ _ nzero nzero) as [[[[si end_] sl] sr]|] eqn:P; [|discriminate]. cbn [bind].
  destruct (gain_loop _ si yt _ _ _ _ _ _ _) as [g|]; [|discriminate]. cbn [bind].
  destruct (mem_get (f_imp s) f) as [w|]; [|discriminate]. cbn [bind].
  destruct (mem_set (f_imp s) f _) as [imp|]; [|discriminate]. cbn [bind].
  destruct (mem_get (e_left e) (q_id q)) as [l|]; [|discriminate]. cbn [bind].
  destruct (leaf_cell e l) as [ll|]; [|discriminate]. cbn [bind].
  destruct (mem_get (e_right e) (q_id q)) as [r|]; [|discriminate]. cbn [bind].
  destruct (leaf_cell e r) as [rl|]; [|discriminate]. cbn [bind].
  intros E. injection E as <- _. cbn [f_si]. apply (partition_length _ _ _ _ _ _ _ _ _ _ _ _ _ _ _ P).
Qed.
Lemma queued_faults (e : ensemble N) X nf n yt i : forall fuel s queue, Z.of_nat (length (f_si s)) < 2 ^ 32 - 1 ->
  In (mkQ i 0 (2 ^ 32 - 1)) queue -> forall s', visit_all red fuel e X nf n yt s queue <> Ok s'.
Proof.
  induction fuel as [|fuel IH]; intros s queue Hs Hq s'; (destruct queue as [|q rest]; [destruct Hq|]); cbn [visit_all]; [discriminate|].
  destruct (visit red e X nf n yt s q) as [[s1 pushed]|] eqn:V; [|discriminate]. cbn [bind fst snd].
  destruct Hq as [->|Hq].
  - rewrite whole_range_faults in V by exact Hs. discriminate.
  - apply IH; [rewrite (visit_length _ _ _ _ _ _ _ _ _ V); exact Hs|]. apply in_or_app. right. exact Hq.
Qed.

(** No instance. *)
Lemma empty_faults (e : ensemble N) X y nf k imp cnt yp r : importance_tree red e X y nf 0 k imp cnt yp <> Ok r.
Proof.
  unfold importance_tree. change (zrange 0 0) with (@nil Z). cbn [mapM bind].
  destruct (mem_get (e_root e) k) as [root|]; [|discriminate]. cbn [bind].
  match goal with |- context [visit_all red ?fu e X nf 0 ?yt ?s ?q] => destruct (visit_all red fu e X nf 0 yt s q) as [s1|] eqn:V; [|discriminate]; exfalso; refine (queued_faults e X nf 0 yt root fu s q _ _ s1 V) end.
  - reflexivity.
  - left. reflexivity.
Qed.

(** A tree made of one leaf. *)
Lemma leaf_faults (e : ensemble N) X y nf n k imp cnt yp i v r : represents e (Leaf i v) -> mem_get (e_root e) k = Ok i ->
  importance_tree red e X y nf n k imp cnt yp <> Ok r.
Proof.
  intros [_ [_ [Hf Hv]]] Hr. unfold importance_tree. destruct (mapM _ _) as [yt|]; [|discriminate]. cbn [bind]. rewrite Hr. cbn [bind].
  cbn [visit_all]. unfold visit at 1. cbn [q_id q_start q_end]. rewrite (mem_get_zget _ _ _ Hf), (mem_get_zget _ _ _ Hv). cbn [bind].
  unfold mem_get at 1, zget at 1. cbn [f_cnt]. change (-1 <? 0) with true. cbn [of_option bind]. discriminate.
Qed.

(** The split visited first sends everything right and its left child is a split. *)
Lemma all_right_faults (e : ensemble N) ts ws rows nf k i f thr l r w y yp imp cnt res : laid_out e ts ws ->
  nth_error ts k = Some (Node i f thr l r) -> nth_error ws k = Some w ->
  fits rows nf -> length y = length rows -> length yp = length rows -> length imp = nf -> length cnt = nf -> 0 <= f < Z.of_nat nf ->
  is_split l = true -> lefts rows f thr (zrange 0 (Z.of_nat (length rows))) = [] ->
  importance_tree red e (concat rows) y (Z.of_nat nf) (Z.of_nat (length rows)) (Z.of_nat k) imp cnt yp <> Ok res.
Proof.
  intros [HE _] Ht Hw [Hne [Hrows [Hsm Hfl]]] Hy Hyp Himp Hcnt Hf Hsp HL0. unfold importance_tree.
  rewrite (mapM_two (fun a b => nf32 (nsub a b)) y yp (length rows) Hy Hyp). cbn [bind]. fold (targets y yp).
  destruct HE as [_ [HR [HW [_ HRep]]]].
  assert (Eroot : mem_get (e_root e) (Z.of_nat k) = Ok i).
  { apply mem_get_zget. rewrite zget_nth, HR, nth_error_map', Ht. reflexivity. }
  rewrite Eroot. cbn [bind]. rewrite Nat2Z.id.
  rewrite Forall_forall in HRep. pose proof (HRep _ (nth_error_In _ _ Ht)) as Hrep.
  assert (Hn : (1 <= length rows)%nat) by (destruct rows; [contradiction|cbn [length]; lia]).
  assert (Hty : length (targets y yp) = length rows) by (unfold targets; rewrite map_length, combine_length; lia).
  assert (Hs0 : sized rows nf (start_state red rows (targets y yp) imp cnt)).
  { unfold sized, start_state. cbn [f_si f_yt f_imp f_cnt]. rewrite repeat_length, zrange_length. repeat split; try assumption. lia. }
  destruct (visit_ok red e rows nf (targets y yp) Hrows Hsm Hfl Hty i f thr l r (start_state red rows (targets y yp) imp cnt) [] (zrange 0 (Z.of_nat (length rows))) [])
    as [L [R [s1 [pl [V [P [H1 [H2 [Hs1 [_ [_ Q]]]]]]]]]]]; try assumption.
  { rewrite app_nil_r. reflexivity. }
  { intro C. apply (f_equal (@length Z)) in C. rewrite zrange_length in C. cbn [length] in C. lia. }
  { apply zrange_nodup. }
  { intros j Hj. apply in_zrange in Hj. exact Hj. }
  assert (HL : L = []).
  { destruct (split_perm rows f thr _ L R P H1 H2) as [PL _]. rewrite HL0 in PL. apply (Permutation_nil PL). }
  destruct (Q eq_refl HL) as [_ Epl]. rewrite Hsp in Epl. subst pl.
  cbn [visit_all].
  replace (u32 (Z.of_nat (length rows) - 1)) with (Z.of_nat (length rows) - 1) by (rewrite u32_small; lia).
  cbn [length] in V. rewrite zrange_length in V. unfold start_state in V.
  replace (Z.of_nat 0 + Z.of_nat (Z.to_nat (Z.of_nat (length rows) - 0)) - 1) with (Z.of_nat (length rows) - 1) in V by lia.
  change (mkQ i (Z.of_nat 0) (Z.of_nat (length rows) - 1)) with (mkQ i 0 (Z.of_nat (length rows) - 1)) in V.
  rewrite V. cbn [bind fst snd].
  match goal with |- context [visit_all red ?fu ?ee ?xx ?nn ?mm ?yt ?s ?q] => destruct (visit_all red fu ee xx nn mm yt s q) as [s2|] eqn:V2; [|discriminate]; exfalso;
    refine (queued_faults ee xx nn mm yt (mark l) fu s q _ _ s2 V2) end.
  - destruct Hs1 as [-> _]. lia.
  - rewrite app_nil_r. apply in_or_app. right. left. reflexivity.
Qed.
End Faults.

(** ** Counts *)
Lemma visits_total (v : list (Z * list Z * list Z)) k : Forall (fun p => 0 <= fst (fst p) < Z.of_nat k) v ->
  fold_right Z.add 0 (map (fun f => visits_of f v) (zrange 0 (Z.of_nat k))) = Z.of_nat (length v).
Proof.
  assert (H1 : forall f, 0 <= f < Z.of_nat k -> fold_right Z.add 0 (map (fun h => if f =? h then 1 else 0) (zrange 0 (Z.of_nat k))) = 1).
  { intros f Hf. assert (E : zrange 0 (Z.of_nat k) = zrange 0 f ++ f :: zrange (f + 1) (Z.of_nat k)).
    { rewrite <- (zrange_cons f) by lia. symmetry. apply zrange_app; lia. }
    assert (Z0 : forall l, ~ In f l -> fold_right Z.add 0 (map (fun h => if f =? h then 1 else 0) l) = 0).
    { induction l as [|a l IH]; intros HN; [reflexivity|]. cbn [map fold_right]. rewrite IH by (intro C; apply HN; right; exact C).
      destruct (Z.eqb_spec f a) as [->|]; [exfalso; apply HN; left; reflexivity|lia]. }
    rewrite E, map_app. cbn [map]. rewrite fold_right_app. cbn [fold_right]. rewrite Z.eqb_refl, (Z0 (zrange (f + 1) (Z.of_nat k))) by (intro C; apply in_zrange in C; lia).
    assert (G : forall l x, ~ In f l -> fold_right Z.add x (map (fun h => if f =? h then 1 else 0) l) = x).
    { induction l as [|a l IH]; intros x HN; [reflexivity|]. cbn [map fold_right]. rewrite IH by (intro C; apply HN; right; exact C).
      destruct (Z.eqb_spec f a) as [->|]; [exfalso; apply HN; left; reflexivity|lia]. }
    apply G. intro C. apply in_zrange in C. lia. }
  induction 1 as [|p v Hp _ IH].
  - unfold visits_of. cbn [filter length]. clear H1. induction (zrange 0 (Z.of_nat k)); [reflexivity|]. cbn [map fold_right]. lia.
  - assert (G : forall l, fold_right Z.add 0 (map (fun f => visits_of f (p :: v)) l) =
                         fold_right Z.add 0 (map (fun h => if fst (fst p) =? h then 1 else 0) l) + fold_right Z.add 0 (map (fun f => visits_of f v) l)).
    { induction l as [|a l IHl]; [reflexivity|]. cbn [map fold_right]. rewrite IHl, visits_cons. lia. }
    rewrite G, (H1 _ Hp), IH. cbn [length]. lia.
Qed.
Lemma total_visits_total {N : Num.num} (d : dataset N) (ts : list (tree Z N)) : Forall (fun t => Forall (fun f => 0 <= f < Z.of_nat (ds_nf d)) (splits t)) ts ->
  fold_right Z.add 0 (map (fun f => total_visits d f ts) (zrange 0 (Z.of_nat (ds_nf d)))) =
  fold_right Z.add 0 (map (fun t => Z.of_nat (length (visited (ds_X d) t (zrange 0 (Z.of_nat (length (ds_X d))))))) ts).
Proof.
  induction 1 as [|t ts Ht _ IH]; [cbn [map fold_right total_visits]; induction (zrange 0 (Z.of_nat (ds_nf d))); [reflexivity|cbn [map fold_right]; assumption]|].
  cbn [map fold_right]. rewrite <- IH.
  assert (G : forall l, fold_right Z.add 0 (map (fun f => total_visits d f (t :: ts)) l) =
     fold_right Z.add 0 (map (fun f => visits_of f (visited (ds_X d) t (zrange 0 (Z.of_nat (length (ds_X d)))))) l) + fold_right Z.add 0 (map (fun f => total_visits d f ts) l)).
  { induction l as [|a l IHl]; [reflexivity|]. cbn [map fold_right]. rewrite IHl. unfold total_visits at 1. cbn [fold_right]. fold (total_visits d a ts). lia. }
  rewrite G, visits_total; [reflexivity|]. clear - Ht. revert Ht. generalize (zrange 0 (Z.of_nat (length (ds_X d)))) as M.
  induction t as [i v|i f thr l IHl r IHr]; intros M H; cbn [visited]; [constructor|]. cbn [splits] in H. inversion H as [|? ? Hf H']; subst.
  apply Forall_app in H'. destruct H' as [H1 H2]. constructor; [exact Hf|]. apply Forall_app. split.
  - destruct (2 <=? _)%nat; [apply IHl; exact H1|constructor].
  - destruct (2 <=? _)%nat; [apply IHr; exact H2|constructor].
Qed.
Lemma sum_nth (l : list Z) : fold_right Z.add 0 l = fold_right Z.add 0 (map (fun f => nth (Z.to_nat f) l 0) (zrange 0 (Z.of_nat (length l)))).
Proof.
  f_equal. apply nth_error_ext'. intro j. rewrite zrange_seq, map_map, nth_error_map', nth_error_seq.
  destruct (Nat.ltb_spec j (length l)) as [H|H]; cbn [option_map].
  - rewrite Nat.add_0_l, Nat2Z.id. apply nth_error_nth'. exact H.
  - apply nth_error_None. exact H.
Qed.

(** The counts of a model, and their sum when nothing wraps. *)
Lemma visits_nonneg f v : 0 <= visits_of f v.
Proof. unfold visits_of. lia. Qed.
Lemma C51_lemma {N : Num.num} (red : list N -> N) e ts ws (d : dataset N) : laid_out e ts ws -> fits (ds_X d) (ds_nf d) -> length (ds_y d) = length (ds_X d) ->
  Forall (visitable (ds_X d) (ds_nf d)) ts ->
  exists imp cnt, eff_importance red e d = Ok (imp, cnt) /\ length imp = ds_nf d /\ length cnt = ds_nf d /\
    (forall f, 0 <= f < Z.of_nat (ds_nf d) -> nth (Z.to_nat f) cnt 0 = (fold_right Z.add 0 (map (fun t => visits_of f (visited (ds_X d) t (zrange 0 (Z.of_nat (length (ds_X d)))))) ts)) mod 2 ^ 16) /\
    (all_visits d ts < 2 ^ 16 -> fold_right Z.add 0 cnt = all_visits d ts).
Proof.
  intros H1 H2 H3 H4. destruct (eff_ok red e ts ws d H1 H2 H3 H4) as [imp [cnt [E [I [C V]]]]].
  assert (TV : forall f us, total_visits d f us = fold_right Z.add 0 (map (fun t => visits_of f (visited (ds_X d) t (zrange 0 (Z.of_nat (length (ds_X d)))))) us)).
  { intros f us. induction us as [|u us IH]; [reflexivity|]. unfold total_visits in *. cbn [fold_right map]. rewrite IH. reflexivity. }
  exists imp, cnt. split; [exact E|]. split; [exact I|]. split; [exact C|]. split.
  - intros f Hf. rewrite (V f Hf), <- TV. reflexivity.
  - intros Hsmall. rewrite sum_nth, C.
    assert (HS : Forall (fun t => Forall (fun f => 0 <= f < Z.of_nat (ds_nf d)) (splits t)) ts) by (eapply Forall_impl; [|exact H4]; intros t [_ [Q _]]; exact Q).
    pose proof (total_visits_total d ts HS) as T. fold (all_visits d ts) in T.
    assert (NN : forall f us, 0 <= total_visits d f us).
    { intros f us. induction us as [|u us IH]; [reflexivity|]. unfold total_visits in *. cbn [fold_right]. pose proof (visits_nonneg f (visited (ds_X d) u (zrange 0 (Z.of_nat (length (ds_X d)))))). lia. }
    assert (B : forall l f, In f l -> total_visits d f ts <= fold_right Z.add 0 (map (fun f => total_visits d f ts) l)).
    { induction l as [|a l IH]; intros f Hf; [destruct Hf|]. cbn [map fold_right].
      assert (0 <= fold_right Z.add 0 (map (fun f => total_visits d f ts) l)) by (clear - NN; induction l; cbn [map fold_right]; [lia|]; pose proof (NN a ts); lia).
      destruct Hf as [->|Hf]; [lia|]. specialize (IH f Hf). pose proof (NN a ts). lia. }
    rewrite <- T. f_equal. apply map_ext_in. intros f Hf. rewrite (V f) by (apply in_zrange in Hf; exact Hf).
    unfold wrap_u. apply Z.mod_small. split; [apply NN|]. pose proof (B _ f Hf). lia.
Qed.

(** ** The sum of the importances *)
Local Open Scope R_scope.
Lemma telescope_any (rows : list (list RE)) (t : tree Z RE) y M : NoDup (marks t) -> NoDup M -> incl M (zrange 0 (Z.of_nat (length rows))) ->
  Rtotal (map (gain y) (visited rows t M)) = sse_mean y M - sse y (fun i => mean y (leaf_mates rows t i M)) M.
Proof.
  intros H1 H2 H3. set (yt := map y (zrange 0 (Z.of_nat (length rows)))).
  assert (X : forall i, In i M -> y i = yv (N:=RE) yt i).
  { intros i Hi. specialize (H3 i Hi). assert (Hr := H3). apply in_zrange in Hr. symmetry. unfold yv, yt. apply nth_error_nth. rewrite nth_error_map'.
    rewrite zrange_seq, nth_error_map', nth_error_seq. destruct (Nat.ltb_spec (Z.to_nat i) (length rows)); [|lia]. cbn [option_map]. rewrite Nat.add_0_l, Z2Nat.id by lia. reflexivity. }
  rewrite (Rtotal_ext (gain y) (gain (yv (N:=RE) yt))) by (intros p Hp; apply gain_ext; intros i Hi; apply X; apply (visited_in rows t M p Hp i Hi)).
  rewrite (telescope rows yt t H1 M H2), <- (sse_mean_ext y (yv (N:=RE) yt) M X). f_equal. unfold sse. apply Rtotal_ext.
  intros i Hi. rewrite <- (X i Hi). f_equal. f_equal. apply mean_ext. intros j Hj. symmetry. apply X. apply (mates_in rows t i M j Hj).
Qed.

Lemma C50_lemma (red : list RE -> RE) e ts ws (d : dataset RE) : (forall l, red l = Rtotal l) ->
  laid_out e ts ws -> fits (ds_X d) (ds_nf d) -> length (ds_y d) = length (ds_X d) -> Forall (visitable (ds_X d) (ds_nf d)) ts ->
  exists imp cnt, eff_importance red e d = Ok (imp, cnt) /\ length imp = ds_nf d /\
    let all := zrange 0 (Z.of_nat (length (ds_X d))) in
    let targets := residuals (ds_X d) all ws ts (fun i => nth (Z.to_nat i) (ds_y d) 0) in
    (forall f, (0 <= f < Z.of_nat (ds_nf d))%Z ->
       nth (Z.to_nat f) imp 0 = Rtotal (map (fun p => gains_of (snd p) f (visited (ds_X d) (fst p) all)) (combine ts targets)) / INR (length (ds_X d)) /\
       0 <= nth (Z.to_nat f) imp 0) /\
    Rtotal imp = Rtotal (map (fun p => error_drop d (fst p) (snd p)) (combine ts targets)) / INR (length (ds_X d)).
Proof.
  intros H0 H1 H2 H3 H4. destruct (eff_real red H0 e ts ws d H1 H2 H3 H4) as [imp [cnt [E [I V]]]].
  exists imp, cnt. split; [exact E|]. split; [exact I|]. cbv zeta.
  set (all := zrange 0 (Z.of_nat (length (ds_X d)))) in *. set (tg := residuals (ds_X d) all ws ts (fun i => nth (Z.to_nat i) (ds_y d) 0)) in *.
  assert (Hn : 0 < INR (length (ds_X d))).
  { destruct H2 as [H2 _]. apply lt_0_INR. destruct (ds_X d); [contradiction|cbn [length]; lia]. }
  split.
  - intros f Hf. split; [apply (V f Hf)|]. rewrite (V f Hf). apply Rmult_le_pos; [|apply Rlt_le, Rinv_0_lt_compat, Hn].
    apply Rtotal_nonneg, Forall_map, Forall_forall. intros p _. apply gains_nonneg.
  - rewrite (Rtotal_nth imp). change (@length R imp) with (@length (car RE) imp). rewrite I.
    rewrite (Rtotal_ext _ (fun f => / INR (length (ds_X d)) * Rtotal (map (fun p => gains_of (snd p) f (visited (ds_X d) (fst p) all)) (combine ts tg)))).
    2:{ intros f Hf. apply in_zrange in Hf. etransitivity; [exact (V f Hf)|]. unfold Rdiv. apply Rmult_comm. }
    rewrite <- (map_map (fun f => Rtotal (map (fun p => gains_of (snd p) f (visited (ds_X d) (fst p) all)) (combine ts tg))) (fun x => / INR (length (ds_X d)) * x)), Rtotal_scale.
    rewrite Rmult_comm. unfold Rdiv. f_equal.
    assert (NDt : Forall (fun t => NoDup (marks t)) ts).
    { apply Forall_forall. intros t Ht. apply In_nth_error in Ht. destruct Ht as [k Hk]. apply (nodup_tree e ts ws k t H1 Hk). }
    assert (G : forall ps : list (tree Z RE * (Z -> R)), Forall (fun p => NoDup (marks (fst p)) /\ Forall (fun f => (0 <= f < Z.of_nat (ds_nf d))%Z) (splits (fst p))) ps ->
       Rtotal (map (fun f => Rtotal (map (fun p => gains_of (snd p) f (visited (ds_X d) (fst p) all)) ps)) (zrange 0 (Z.of_nat (ds_nf d)))) =
       Rtotal (map (fun p => error_drop d (fst p) (snd p)) ps)).
    { induction 1 as [|p ps [Hp1 Hp2] _ IH].
      - cbn [map]. induction (zrange 0 (Z.of_nat (ds_nf d))) as [|a l IH]; [reflexivity|]. cbn [map]. rewrite Rtotal_cons, IH. change (Rtotal []) with 0. lra.
      - cbn [map]. rewrite Rtotal_cons, <- IH.
        rewrite (Rtotal_ext _ (fun f => gains_of (snd p) f (visited (ds_X d) (fst p) all) + Rtotal (map (fun p => gains_of (snd p) f (visited (ds_X d) (fst p) all)) ps)))
          by (intros f _; apply Rtotal_cons).
        rewrite Rtotal_map_add. f_equal. rewrite gains_total by exact (visited_splits (ds_X d) (fun f => (0 <= f < Z.of_nat (ds_nf d))%Z) (fst p) Hp2 all).
        unfold error_drop. apply telescope_any; [exact Hp1|apply zrange_nodup|apply incl_refl]. }
    apply G. apply Forall_forall. intros p Hp. destruct p as [t yy]. apply in_combine_l in Hp. cbn [fst].
    rewrite Forall_forall in NDt, H4. split; [apply NDt; exact Hp|]. destruct (H4 t Hp) as [_ [Q _]]. exact Q.
Qed.

(** ** Square root and normalisation *)
Lemma rmse_lemma {N : Num.num} (red : list N -> N) e d imp cnt a : eff_importance red e d = Ok (a :: imp, cnt) ->
  feature_importance red e d true false = Ok (nf32 (nsqrt a) :: imp, cnt).
Proof. intros E. unfold feature_importance. rewrite E. reflexivity. Qed.
Lemma fold_max_R (l : list R) : forall x, let m := fold_left (fun m v => if Rleb m v || negb (Rleb v v) then v else m) l x in In m (x :: l) /\ forall v, In v (x :: l) -> v <= m.
Proof.
  induction l as [|a l IH]; intros x; cbn [fold_left]; cbv zeta.
  - split; [left; reflexivity|]. intros v [->|[]]. apply Rle_refl.
  - replace (Rleb a a) with true by (symmetry; apply Rleb_true; lra). cbn [negb]. rewrite orb_false_r.
    specialize (IH (if Rleb x a then a else x)). cbv zeta in IH. destruct IH as [I1 I2]. split.
    + destruct I1 as [<-|I1]; [|right; right; exact I1]. destruct (Rleb x a); [right; left; reflexivity|left; reflexivity].
    + pose proof (I2 _ (or_introl eq_refl)) as B. intros v [->|[->|Hv]].
      * destruct (Rleb v a) eqn:Q; [apply Rleb_true in Q; lra|exact B].
      * destruct (Rleb x v) eqn:Q; [exact B|apply Rleb_false in Q; lra].
      * apply I2. right. exact Hv.
Qed.
Lemma normalize_lemma (red : list RE -> RE) e d imp cnt : eff_importance red e d = Ok (imp, cnt) -> (forall v, In v imp -> 0 <= v) -> (exists v, In v imp /\ 0 < v) ->
  exists m, In m imp /\ 0 < m /\ (forall v, In v imp -> v <= m) /\
    feature_importance red e d false true = Ok (map (fun v => v / m) imp, cnt).
Proof.
  intros E Hp [v0 [Hv0 Hpos]]. unfold feature_importance. rewrite E. cbn [bind fst snd].
  destruct imp as [|x l]; [destruct Hv0|].
  destruct (fold_max_R l x) as [I1 I2].
  exists (fold_left (fun m v => if Rleb m v || negb (Rleb v v) then v else m) l x). split; [exact I1|]. split; [specialize (I2 v0 Hv0); lra|]. split; [exact I2|]. reflexivity.
Qed.
