(** Proofs about feature importance: the visit of one tree, in any arithmetic. *)
From Coq Require Import List ZArith Bool Lia Permutation Arith.
From Verif Require Import Base Num Lists M_Dataset M_Ensemble S_Ensemble L_Ensemble L_Loaders M_Topology L_Topology M_Feature S_Feature L_Feature.
Import ListNotations.
Local Open Scope Z_scope.

Lemma nth_error_concat {A} (rows : list (list A)) (w : nat) : Forall (fun r => length r = w) rows ->
  forall i j row, nth_error rows i = Some row -> (j < w)%nat -> nth_error (concat rows) (i * w + j) = nth_error row j.
Proof.
  induction 1 as [|r rows Hr HF IH]; intros i j row Hi Hj; [destruct i; discriminate|]. cbn [concat].
  destruct i as [|i]; cbn [nth_error] in Hi.
  - injection Hi as ->. rewrite nth_error_app1 by lia. f_equal.
  - rewrite nth_error_app2 by nia. rewrite <- (IH i j row Hi Hj). f_equal. nia.
Qed.

Lemma u32_small v : 0 <= v < 2 ^ 32 -> u32 v = v.
Proof. intros H. unfold u32, wrap_u. apply Z.mod_small. exact H. Qed.
Lemma i32_small v : 0 <= v < 2 ^ 31 -> i32 v = v.
Proof.
  intros H. unfold i32, wrap_s. change (32 - 1) with 31. assert (2 ^ 31 < 2 ^ 32) by reflexivity. rewrite Z.mod_small by lia.
  destruct (Z.ltb_spec v (2 ^ 31)); lia.
Qed.

Section Visit.
Context {N : num} (red : list N -> N).
Variable (e : ensemble N) (rows : list (list N)) (nf : nat) (yt : list N).
Hypothesis Hrows : Forall (fun r => length r = nf) rows.
Hypothesis Hsmall : Z.of_nat (length rows) < 2 ^ 31.
Hypothesis Hflat : Z.of_nat (length rows) * Z.of_nat nf < 2 ^ 32.
Hypothesis Hyt : length yt = length rows.
Implicit Type t : tree Z N.
Notation n := (Z.of_nat (length rows)).
Notation X := (concat rows).
Definition yv (i : Z) : N := nth (Z.to_nat i) yt nzero.

Lemma x_ok f i : 0 <= i < n -> 0 <= f < Z.of_nat nf ->
  zget X (x_index (Z.of_nat nf) i f) = Some (nth (Z.to_nat f) (nth (Z.to_nat i) rows []) nzero).
Proof.
  intros Hi Hf. unfold x_index.
  assert (B : 0 <= i * Z.of_nat nf /\ i * Z.of_nat nf + f < n * Z.of_nat nf) by nia.
  assert (E : u32 (u32 (i * Z.of_nat nf) + f) = Z.of_nat (Z.to_nat i * nf + Z.to_nat f)).
  { unfold u32, wrap_u. rewrite (Z.mod_small (i * Z.of_nat nf)) by lia. rewrite Z.mod_small by lia. lia. }
  rewrite E, zget_nth. assert (Hi' : (Z.to_nat i < length rows)%nat) by lia.
  destruct (nth_error rows (Z.to_nat i)) as [row|] eqn:Er; [|apply nth_error_None in Er; lia].
  rewrite (nth_error_concat rows nf Hrows _ _ row Er) by lia.
  rewrite (nth_error_nth rows (Z.to_nat i) [] Er).
  apply nth_error_nth'. rewrite Forall_forall in Hrows. rewrite (Hrows row (nth_error_In _ _ Er)). lia.
Qed.
Lemma yt_ok i : 0 <= i < n -> zget yt i = Some (yv i).
Proof. intros Hi. apply zget_some_nth. lia. Qed.

Lemma split_perm f thr M L R : Permutation M (L ++ R) ->
  (forall i, In i L -> goes_left rows f thr i = true) -> (forall i, In i R -> goes_left rows f thr i = false) ->
  Permutation (lefts rows f thr M) L /\ Permutation (rights rows f thr M) R.
Proof.
  intros HP HL HR. unfold lefts, rights.
  assert (F1 : forall l p, (forall i : Z, In i l -> p i = true) -> filter p l = l).
  { induction l as [|a l IH]; intros p H; [reflexivity|]. cbn [filter]. rewrite (H a (or_introl eq_refl)). f_equal. apply IH. intros; apply H; right; assumption. }
  assert (F0 : forall l p, (forall i : Z, In i l -> p i = false) -> filter p l = []).
  { induction l as [|a l IH]; intros p H; [reflexivity|]. cbn [filter]. rewrite (H a (or_introl eq_refl)). apply IH. intros; apply H; right; assumption. }
  split.
  - rewrite (Permutation_filter _ HP), filter_app, (F1 L _ HL), (F0 R _ HR), app_nil_r. apply Permutation_refl.
  - rewrite (Permutation_filter _ HP), filter_app, F0, (F1 R).
    + apply Permutation_refl.
    + intros i Hi. rewrite HR by exact Hi. reflexivity.
    + intros i Hi. rewrite HL by exact Hi. reflexivity.
Qed.

Lemma leaf_cell_ok t : represents e t -> (match t with Leaf _ _ => True | Node _ _ _ l _ => 0 <= mark l end) -> leaf_cell e (mark t) = Ok (negb (is_split t)).
Proof.
  destruct t as [i v|i f thr l r]; cbn [represents mark is_split negb]; intros H Hm; unfold leaf_cell.
  - destruct H as [H1 [H2 _]]. rewrite (mem_get_zget _ _ _ H1). cbn [bind]. change (-1 =? -1) with true. cbn [negb].
    rewrite (mem_get_zget _ _ _ H2). reflexivity.
  - destruct H as [H1 _]. rewrite (mem_get_zget _ _ _ H1). cbn [bind]. destruct (Z.eqb_spec (mark l) (-1)); [lia|]. reflexivity.
Qed.
Lemma left_mark t : represents e t -> match t with Leaf _ _ => True | Node _ _ _ l _ => 0 <= mark l end.
Proof. destruct t as [i v|i f thr l r]; [trivial|]. cbn [represents]. intros [_ [_ [_ [_ [HL _]]]]]. apply rep_range in HL. lia. Qed.

(** The two new predictions. *)
Definition mean_left L : N := normalised (accum yv L nzero) (Z.of_nat (length L)).
Definition mean_right R : N := normalised (accum yv (rev R) nzero) (Z.of_nat (length R)).
Definition pv (s : fstate (N:=N)) (i : Z) : N := nth (Z.to_nat i) (f_yt s) nzero.

(** What one visit does to the arrays other than split_instance. *)
Definition stepped (f : Z) (nv : Z -> N) (L R : list Z) (s s1 : fstate (N:=N)) : Prop :=
  f_cnt s1 = upd (f_cnt s) (Z.to_nat f) (wrap_u 16 (nth (Z.to_nat f) (f_cnt s) 0 + 1)) /\
  f_imp s1 = upd (f_imp s) (Z.to_nat f)
     (nf32 (nadd (nth (Z.to_nat f) (f_imp s) nzero) (nf32 (ndiv (nf32 (red (map (term yv (pv s) nv) (L ++ R)))) (nofZ n))))) /\
  length (f_yt s1) = length (f_yt s) /\
  (forall j, In j (L ++ R) -> zget (f_yt s1) j = Some (nv j)) /\ (forall j, ~ In j (L ++ R) -> zget (f_yt s1) j = zget (f_yt s) j).

Definition sized (s : fstate (N:=N)) : Prop :=
  length (f_si s) = length rows /\ length (f_yt s) = length rows /\ length (f_imp s) = nf /\ length (f_cnt s) = nf.

Lemma mem_set_upd {A} (l : list A) i v : 0 <= i < Z.of_nat (length l) -> mem_set l i v = Ok (upd l (Z.to_nat i) v).
Proof. intros H. unfold mem_set. destruct (Z.ltb_spec i 0), (Z.leb_spec (Z.of_nat (length l)) i); try lia. reflexivity. Qed.

Lemma visit_ok i f thr l r s A M B : represents e (Node i f thr l r) -> 0 <= f < Z.of_nat nf ->
  sized s -> f_si s = A ++ M ++ B -> M <> [] -> NoDup M -> (forall j, In j M -> 0 <= j < n) ->
  exists L R s1 pl,
    visit red e X (Z.of_nat nf) n yt s (mkQ i (Z.of_nat (length A)) (Z.of_nat (length A) + Z.of_nat (length M) - 1)) =
      Ok (s1, (if is_split r && (2 <=? length R)%nat
               then [mkQ (mark r) (Z.of_nat (length A) + Z.of_nat (length L)) (Z.of_nat (length A) + Z.of_nat (length M) - 1)] else []) ++ pl) /\
    Permutation M (L ++ R) /\ (forall j, In j L -> goes_left rows f thr j = true) /\ (forall j, In j R -> goes_left rows f thr j = false) /\
    sized s1 /\ f_si s1 = A ++ L ++ R ++ B /\
    ((A <> [] \/ L <> []) ->
       stepped f (fun j => if goes_left rows f thr j then mean_left L else mean_right R) L R s s1 /\
       pl = if is_split l && (2 <=? length L)%nat then [mkQ (mark l) (Z.of_nat (length A)) (Z.of_nat (length A) + Z.of_nat (length L) - 1)] else []) /\
    (A = [] -> L = [] ->
       stepped f (fun _ => nzero) L R s s1 /\ pl = if is_split l then [mkQ (mark l) 0 (2 ^ 32 - 1)] else []).
Proof.
  intros Hrep Hf Hs HM Hne ND Hin. pose proof Hs as [S1 [S2 [S3 S4]]].
  cbn [represents] in Hrep. destruct Hrep as [R1 [R2 [R3 [R4 [RL RR]]]]].
  assert (Hlen : (length A + length M <= length rows)%nat).
  { rewrite HM in S1. rewrite !app_length in S1. lia. }
  assert (HM1 : (1 <= length M)%nat) by (destruct M; [contradiction|cbn [length]; lia]).
  unfold visit. cbn [q_id q_start q_end].
  rewrite (mem_get_zget _ _ _ R3). cbn [bind]. rewrite (mem_get_zget _ _ _ R4). cbn [bind].
  rewrite (mem_get_zget (f_cnt s) f (nth (Z.to_nat f) (f_cnt s) 0)) by (apply zget_some_nth; lia). cbn [bind].
  rewrite mem_set_upd by lia. cbn [bind].
  assert (I1 : i32 (Z.of_nat (length A)) = Z.of_nat (length A)).
  { apply i32_small. lia. }
  assert (I2 : i32 (Z.of_nat (length A) + Z.of_nat (length M) - 1) = Z.of_nat (length A) + Z.of_nat (length M) - 1).
  { apply i32_small. lia. }
  rewrite I1, I2, HM.
  destruct (part_ok X (Z.of_nat nf) f thr yt (fun j => nth (Z.to_nat f) (nth (Z.to_nat j) rows []) nzero) yv
              (length M) M A B nzero nzero (length (A ++ M ++ B)) eq_refl) as [L [R [E [P [HL HR]]]]].
  { rewrite !app_length. lia. }
  { intros j Hj. split; [apply x_ok; [apply Hin; exact Hj|exact Hf]|apply yt_ok; apply Hin; exact Hj]. }
  rewrite E. cbn [bind].
  assert (HMLR : length M = (length L + length R)%nat) by (rewrite (Permutation_length P), app_length; reflexivity).
  assert (NDLR : NoDup (L ++ R)) by (apply (Permutation_NoDup P ND)).
  assert (HinLR : forall j, In j (L ++ R) -> 0 <= j < n) by (intros j Hj; apply Hin; apply (Permutation_in _ (Permutation_sym P)); exact Hj).
  (* numbers of documents *)
  assert (D1 : i32 (u32 (Z.of_nat (length A) + Z.of_nat (length L) - 1 - Z.of_nat (length A) + 1)) = Z.of_nat (length L)).
  { replace (Z.of_nat (length A) + Z.of_nat (length L) - 1 - Z.of_nat (length A) + 1) with (Z.of_nat (length L)) by lia.
    rewrite u32_small, i32_small by lia. reflexivity. }
  assert (D2 : i32 (u32 (Z.of_nat (length A) + Z.of_nat (length M) - 1 - (Z.of_nat (length A) + Z.of_nat (length L) - 1))) = Z.of_nat (length R)).
  { replace (Z.of_nat (length A) + Z.of_nat (length M) - 1 - (Z.of_nat (length A) + Z.of_nat (length L) - 1)) with (Z.of_nat (length R)) by lia.
    rewrite u32_small, i32_small by lia. reflexivity. }
  rewrite D1, D2. fold (mean_left L). fold (mean_right R).
  set (end_ := Z.of_nat (length A) + Z.of_nat (length L) - 1) in *.
  set (nv := fun j => if goes_left rows f thr j || (match A, L with [], [] => true | _, _ => false end) then mean_left L else mean_right R).
  destruct (gain_ok yt yv (pv s) nv end_ (mean_left L) (mean_right R) (Z.of_nat (length A) + Z.of_nat (length M) - 1)
              (L ++ R) A B (f_yt s) [] (S (length (A ++ L ++ R ++ B)))) as [yp' [E2 [L2 [G2 F2]]]].
  { rewrite app_length. lia. }
  { rewrite !app_length. lia. }
  { lia. }
  { exact NDLR. }
  { intros k j Hk. assert (Hkl : (k < length (L ++ R))%nat) by (apply nth_error_Some; congruence). rewrite app_length in Hkl.
    destruct (Nat.lt_ge_cases k (length L)) as [HkL|HkL].
    - rewrite nth_error_app1 in Hk by exact HkL. unfold nv. rewrite (HL j (nth_error_In _ _ Hk) : goes_left rows f thr j = true). cbn [orb].
      assert (U : u32 end_ = end_) by (unfold u32, wrap_u, end_; rewrite Z.mod_small; lia).
      rewrite U. unfold end_. destruct (Z.leb_spec (Z.of_nat (length A + k)) (Z.of_nat (length A) + Z.of_nat (length L) - 1)); [reflexivity|lia].
    - rewrite nth_error_app2 in Hk by exact HkL. unfold nv. rewrite (HR j (nth_error_In _ _ Hk) : goes_left rows f thr j = false). cbn [orb].
      destruct (match A, L with [], [] => true | _, _ => false end) eqn:Q.
      + destruct A as [|a A]; [|discriminate]. destruct L as [|a L]; [|discriminate]. unfold end_. cbn [length].
        replace (u32 (Z.of_nat 0 + Z.of_nat 0 - 1)) with (2 ^ 32 - 1) by reflexivity.
        destruct (Z.leb_spec (Z.of_nat (0 + k)) (2 ^ 32 - 1)); [reflexivity|]. cbn [length] in *. lia.
      + assert (U : u32 end_ = end_).
        { unfold u32, wrap_u, end_. destruct A as [|a A], L as [|a' L]; try discriminate; cbn [length] in *; rewrite Z.mod_small; lia. }
        rewrite U. unfold end_. destruct (Z.leb_spec (Z.of_nat (length A + k)) (Z.of_nat (length A) + Z.of_nat (length L) - 1)); [lia|reflexivity]. }
  { intros j Hj. split; [apply yt_ok; apply HinLR; exact Hj|]. apply zget_some_nth. specialize (HinLR j Hj). lia. }
  rewrite <- app_assoc in E2. rewrite E2. cbn [bind fst snd].
  rewrite (mem_get_zget (f_imp s) f (nth (Z.to_nat f) (f_imp s) nzero)) by (apply zget_some_nth; lia). cbn [bind].
  rewrite mem_set_upd by lia. cbn [bind].
  rewrite (mem_get_zget _ _ _ R1). cbn [bind]. rewrite (leaf_cell_ok l RL (left_mark l RL)). cbn [bind].
  rewrite (mem_get_zget _ _ _ R2). cbn [bind]. rewrite (leaf_cell_ok r RR (left_mark r RR)). cbn [bind].
  rewrite !negb_involutive.
  assert (U1 : u32 (end_ + 1) = Z.of_nat (length A) + Z.of_nat (length L)).
  { unfold u32, wrap_u, end_. replace (Z.of_nat (length A) + Z.of_nat (length L) - 1 + 1) with (Z.of_nat (length A) + Z.of_nat (length L)) by lia. rewrite Z.mod_small; lia. }
  rewrite U1.
  assert (C1 : (Z.of_nat (length A) + Z.of_nat (length L) <? Z.of_nat (length A) + Z.of_nat (length M) - 1) = (2 <=? length R)%nat).
  { rewrite HMLR. destruct (Nat.leb_spec 2 (length R)), (Z.ltb_spec (Z.of_nat (length A) + Z.of_nat (length L)) (Z.of_nat (length A) + Z.of_nat (length L + length R) - 1)); try reflexivity; lia. }
  rewrite C1.
  eexists L, R, _, _. split; [reflexivity|]. split; [exact P|]. split; [exact HL|]. split; [exact HR|].
  split.
  { unfold sized. cbn [f_si f_yt f_imp f_cnt]. rewrite !upd_length, L2. rewrite !app_length. rewrite HM, !app_length in S1. repeat split; lia. }
  split; [reflexivity|]. split.
  - intros Hsafe. assert (Q : (match A, L with [], [] => true | _, _ => false end) = false).
    { destruct A; [destruct L; [exfalso; destruct Hsafe as [H|H]; apply H; reflexivity|reflexivity]|reflexivity]. }
    assert (U : u32 end_ = end_).
    { unfold u32, wrap_u, end_. destruct A as [|a A], L as [|a' L]; try discriminate; cbn [length] in *; rewrite Z.mod_small; lia. }
    assert (Hnv : forall j, nv j = if goes_left rows f thr j then mean_left L else mean_right R).
    { intro j. unfold nv. rewrite Q, orb_false_r. reflexivity. }
    split.
    + unfold stepped. cbn [f_si f_yt f_imp f_cnt]. split; [reflexivity|]. split.
      * repeat f_equal. cbn [app]. apply map_ext. intro j. unfold term. rewrite Hnv. reflexivity.
      * split; [exact L2|]. split; [|exact F2]. intros j Hj. rewrite (G2 j Hj), Hnv. reflexivity.
    + rewrite U. replace (Z.of_nat (length A) <? end_) with (2 <=? length L)%nat; [reflexivity|].
      unfold end_. destruct (Nat.leb_spec 2 (length L)), (Z.ltb_spec (Z.of_nat (length A)) (Z.of_nat (length A) + Z.of_nat (length L) - 1)); try reflexivity; lia.
  - intros HA HLn. subst A L. assert (Hnv : forall j, nv j = nzero).
    { intro j. unfold nv. rewrite orb_true_r. reflexivity. }
    split.
    + unfold stepped. cbn [f_si f_yt f_imp f_cnt]. split; [reflexivity|]. split.
      * repeat f_equal. cbn [app]. apply map_ext. intro j. unfold term. rewrite Hnv. reflexivity.
      * split; [exact L2|]. split; [|exact F2]. intros j Hj. rewrite (G2 j Hj), Hnv. reflexivity.
    + unfold end_. cbn [length]. change (u32 (Z.of_nat 0 + Z.of_nat 0 - 1)) with (2 ^ 32 - 1). change (Z.of_nat 0 <? 2 ^ 32 - 1) with true.
      rewrite andb_true_r. reflexivity.
Qed.

(** The visit of a tree when the instances at the beginning always go somewhere left. *)
Definition vis t (M : list Z) : bool := is_split t && (2 <=? length M)%nat.
Inductive run : tree Z N -> list Z -> fstate (N:=N) -> fstate (N:=N) -> Prop :=
| run_node i f thr l r M L R s s1 s2 s3 :
    Permutation M (L ++ R) -> NoDup M ->
    (forall j, In j L -> goes_left rows f thr j = true) -> (forall j, In j R -> goes_left rows f thr j = false) ->
    stepped f (fun j => if goes_left rows f thr j then mean_left L else mean_right R) L R s s1 ->
    (vis r R = true -> run r R s1 s2) -> (vis r R = false -> s2 = s1) ->
    (vis l L = true -> run l L s2 s3) -> (vis l L = false -> s3 = s2) ->
    run (Node i f thr l r) M s s3.

Lemma fgl_perm t : forall b M M', Permutation M M' -> first_goes_left rows b t M -> first_goes_left rows b t M'.
Proof.
  induction t as [i v|i f thr l IHl r IHr]; intros b M M' P; [trivial|]. cbn [first_goes_left]. intros [H1 [H2 H3]].
  assert (PL : Permutation (lefts rows f thr M) (lefts rows f thr M')) by (apply Permutation_filter; exact P).
  assert (PR : Permutation (rights rows f thr M) (rights rows f thr M')) by (apply Permutation_filter; exact P).
  split; [|split].
  - intros Hb C. apply (H1 Hb). rewrite C in PL. apply Permutation_sym in PL. apply (Permutation_nil PL).
  - intros HL. apply (IHl b _ _ PL). apply H2. rewrite (Permutation_length PL). exact HL.
  - intros HR. apply (IHr false _ _ PR). apply H3. rewrite (Permutation_length PR). exact HR.
Qed.

Lemma loop_ok t : represents e t -> is_split t = true -> Forall (fun f => 0 <= f < Z.of_nat nf) (splits t) ->
  forall s A M B fuel first, sized s -> f_si s = A ++ M ++ B -> M <> [] -> NoDup M -> (forall j, In j M -> 0 <= j < n) ->
  (A = [] -> first = true) -> first_goes_left rows first t M -> (size t <= fuel)%nat ->
  exists s' k, (k <= size t)%nat /\
    (forall rest, visit_all red fuel e X (Z.of_nat nf) n yt s (mkQ (mark t) (Z.of_nat (length A)) (Z.of_nat (length A) + Z.of_nat (length M) - 1) :: rest)
    = visit_all red (fuel - k) e X (Z.of_nat nf) n yt s' rest) /\
    run t M s s' /\ sized s' /\ (exists M', f_si s' = A ++ M' ++ B /\ Permutation M M').
Proof.
  induction t as [i v|i f thr l IHl r IHr]; intros Hrep Hsp Hfs; [discriminate|].
  intros s A M B fuel first Hs HM Hne ND Hin Hfirst Hfgl Hfuel.
  cbn [splits] in Hfs. inversion Hfs as [|? ? Hf Hfs']; subst. apply Forall_app in Hfs'. destruct Hfs' as [HfL HfR].
  cbn [size] in Hfuel. destruct fuel as [|fuel]; [lia|].
  destruct (visit_ok i f thr l r s A M B Hrep Hf Hs HM Hne ND Hin) as [L [R [s1 [pl [E [P [HL [HR [Hs1 [HM1 [Hsafe _]]]]]]]]]]].
  cbn [first_goes_left] in Hfgl. destruct Hfgl as [G1 [G2 G3]].
  destruct (split_perm f thr M L R P HL HR) as [PL PR].
  assert (Hs' : A <> [] \/ L <> []).
  { destruct A as [|a A]; [right|left; discriminate]. intro C. apply (G1 (Hfirst eq_refl)). rewrite C in PL. apply Permutation_sym in PL. apply (Permutation_nil PL). }
  destruct (Hsafe Hs') as [HST ->]. clear Hsafe.
  cbn [represents] in Hrep. destruct Hrep as [_ [_ [_ [_ [RL RR]]]]].
  assert (NDLR : NoDup (L ++ R)) by (apply (Permutation_NoDup P ND)). apply NoDup_app_inv in NDLR. destruct NDLR as [NDL [NDR _]].
  assert (HinL : forall j, In j L -> 0 <= j < n) by (intros j Hj; apply Hin; apply (Permutation_in _ (Permutation_sym P)); apply in_or_app; left; exact Hj).
  assert (HinR : forall j, In j R -> 0 <= j < n) by (intros j Hj; apply Hin; apply (Permutation_in _ (Permutation_sym P)); apply in_or_app; right; exact Hj).
  assert (HMLR : length M = (length L + length R)%nat) by (rewrite (Permutation_length P), app_length; reflexivity).
  assert (Hright : exists s2 k2 R', (k2 <= size r)%nat /\ sized s2 /\ f_si s2 = A ++ L ++ R' ++ B /\ Permutation R R' /\
    (vis r R = true -> run r R s1 s2) /\ (vis r R = false -> s2 = s1) /\
    forall rest', visit_all red fuel e X (Z.of_nat nf) n yt s1
      ((if is_split r && (2 <=? length R)%nat then [mkQ (mark r) (Z.of_nat (length A) + Z.of_nat (length L)) (Z.of_nat (length A) + Z.of_nat (length M) - 1)] else []) ++ rest')
      = visit_all red (fuel - k2) e X (Z.of_nat nf) n yt s2 rest').
  { destruct (is_split r && (2 <=? length R)%nat) eqn:V.
    - apply andb_true_iff in V. destruct V as [V1 V2]. apply Nat.leb_le in V2.
      destruct (IHr RR V1 HfR s1 (A ++ L) R B fuel false Hs1) as [s2 [k2 [K [Er [Hrun [Hs2 [R' [HR' PR']]]]]]]].
      + rewrite HM1, <- app_assoc. reflexivity.
      + destruct R; [cbn in V2; lia|discriminate].
      + exact NDR.
      + exact HinR.
      + intros C. apply app_eq_nil in C. destruct C as [-> ->]. destruct Hs' as [C|C]; exfalso; apply C; reflexivity.
      + apply (fgl_perm r false _ _ PR). apply G3. rewrite (Permutation_length PR). exact V2.
      + lia.
      + exists s2, k2, R'. split; [exact K|]. split; [exact Hs2|]. split; [rewrite HR', <- app_assoc; reflexivity|]. split; [exact PR'|].
        split; [intros _; exact Hrun|]. split; [unfold vis; rewrite V1; apply Nat.leb_le in V2; rewrite V2; discriminate|].
        intros rest'. rewrite <- Er. cbn [app]. rewrite HMLR, app_length, !Nat2Z.inj_add, Z.add_assoc. reflexivity.
    - exists s1, 0%nat, R. split; [lia|]. split; [exact Hs1|]. split; [exact HM1|]. split; [apply Permutation_refl|].
      unfold vis. rewrite V. split; [discriminate|]. split; [reflexivity|]. intros rest'. cbn [app]. f_equal. lia. }
  destruct Hright as [s2 [k2 [R' [K2 [Hs2 [HM2 [PR' [Rr1 [Rr2 Er]]]]]]]]].
  assert (Hleft : exists s3 k3 L', (k3 <= size l)%nat /\ sized s3 /\ f_si s3 = A ++ L' ++ R' ++ B /\ Permutation L L' /\
    (vis l L = true -> run l L s2 s3) /\ (vis l L = false -> s3 = s2) /\
    forall rest', visit_all red (fuel - k2) e X (Z.of_nat nf) n yt s2
      ((if is_split l && (2 <=? length L)%nat then [mkQ (mark l) (Z.of_nat (length A)) (Z.of_nat (length A) + Z.of_nat (length L) - 1)] else []) ++ rest')
      = visit_all red (fuel - k2 - k3) e X (Z.of_nat nf) n yt s3 rest').
  { destruct (is_split l && (2 <=? length L)%nat) eqn:V.
    - apply andb_true_iff in V. destruct V as [V1 V2]. apply Nat.leb_le in V2.
      destruct (IHl RL V1 HfL s2 A L (R' ++ B) (fuel - k2)%nat first Hs2) as [s3 [k3 [K [El [Hrun [Hs3 [L' [HL' PL']]]]]]]].
      + exact HM2.
      + destruct L; [cbn in V2; lia|discriminate].
      + exact NDL.
      + exact HinL.
      + exact Hfirst.
      + apply (fgl_perm l first _ _ PL). apply G2. rewrite (Permutation_length PL). exact V2.
      + lia.
      + exists s3, k3, L'. split; [exact K|]. split; [exact Hs3|]. split; [exact HL'|]. split; [exact PL'|].
        split; [intros _; exact Hrun|]. split; [unfold vis; rewrite V1; apply Nat.leb_le in V2; rewrite V2; discriminate|].
        intros rest'. rewrite <- El. reflexivity.
    - exists s2, 0%nat, L. split; [lia|]. split; [exact Hs2|]. split; [exact HM2|]. split; [apply Permutation_refl|].
      unfold vis. rewrite V. split; [discriminate|]. split; [reflexivity|]. intros rest'. cbn [app]. f_equal. lia. }
  destruct Hleft as [s3 [k3 [L' [K3 [Hs3 [HM3 [PL' [Rl1 [Rl2 El]]]]]]]]].
  exists s3, (1 + k2 + k3)%nat. split; [cbn [size]; lia|]. split; [|split; [|split; [exact Hs3|]]].
  - intros rest. cbn [visit_all mark]. rewrite E. cbn [bind fst snd]. rewrite <- app_assoc, Er, El. f_equal. lia.
  - apply (run_node i f thr l r M L R s s1 s2 s3); assumption.
  - exists (L' ++ R'). split; [rewrite HM3, <- app_assoc; reflexivity|].
    apply Permutation_trans with (L ++ R); [exact P|]. apply Permutation_app; assumption.
Qed.
End Visit.
