(** Programs on the heap: what careful clients see. *)
From Coq Require Import List ZArith QArith Lia Bool Reals.
From Verif Require Import Base Lists Num M_Dataset M_NDCG M_Ensemble S_Dataset S_Ensemble
  L_Ensemble3 M_Heap S_Heap L_Heap L_Heap2.
Import ListNotations.
Local Open Scope nat_scope.

Section Programs.
Context {N : num}.
Variable rowsum : list N -> N.
Variable digest : list (list N) -> list N -> list Z -> Z.
Implicit Types st : state N.
Implicit Types h : heap N.

Lemma model_at_grows st st' m : inv digest st -> grows st st' -> m < length (mos st) ->
  mobj_at st' m = mobj_at st m -> model_at st' m = model_at st m.
Proof.
  intros [V S0] G Hm E. unfold model_at. rewrite E. destruct V as (V1 & V2 & V3).
  destruct (V3 (mobj_at st m)) as [A C]; [apply in_nth_lt; auto|].
  apply model_of_grows; auto. split; auto.
Qed.
Lemma quiet_model st st' m : inv digest st -> quiet digest st st' -> m < length (mos st) ->
  model_at st' m = model_at st m.
Proof.
  intros I (_ & G & E) Hm. apply model_at_grows; auto. unfold mobj_at. rewrite E. reflexivity.
Qed.

(** ** Score *)
Lemma score_sim st m d det cache : inv digest st -> m < length (mos st) -> d < length (dss st) ->
  let r := heap_score rowsum digest st m d det cache in
  cached_ok digest st (fst r) m /\
  (model_at (fst r) m, answer_at r) = score rowsum digest (model_at st m) (d, dataset_at st d) det cache /\
  (forall u, check_features (m_ens (model_at st m)) (dataset_at st d) = Ok u ->
     d_hash (nth d (dss (fst r)) no_dobj) <> None).
Proof.
  intros I Hm Hd. cbv zeta. unfold heap_score, score.
  change (m_ens (model_at st m)) with (ensemble_of (mem st) (mobj_at st m)). cbn [snd].
  destruct (check_features _ _) as [u|er].
  2:{ cbn [bind fst snd]. split; [|split; [reflexivity|discriminate]].
      split; [exact I|]. split; [apply grows_refl|]. repeat split; auto. }
  cbn [bind].
  destruct (hash_quiet digest st d I Hd) as (Q & Hh & Hz & Hsc & Hmem).
  destruct (hash_of digest st d) as [st1 z]. cbn [fst snd] in *.
  assert (Q' := Q). destruct Q' as (I1 & G1 & E1).
  assert (Hm1 : m < length (mos st1)) by (rewrite E1; exact Hm).
  assert (Hd1 : d < length (dss st1)) by (destruct G1 as (_ & G1 & _); lia).
  assert (Emo : mobj_at st1 m = mobj_at st m) by (unfold mobj_at; rewrite E1; reflexivity).
  assert (Emod : model_at st1 m = model_at st m) by (apply quiet_model; auto).
  assert (Eds : dataset_at st1 d = dataset_at st d) by (apply dataset_at_grows; auto; apply I).
  assert (Cok : cache_ok st1 (o_cache (mobj_at st1 m))).
  { destruct I1 as [(_ & _ & V3) _]. apply (V3 (mobj_at st1 m)). apply in_nth_lt; auto. }
  assert (Hz1 : z = ds_hash digest (dataset_at st1 d)) by (rewrite Eds; exact Hz).
  rewrite <- Emod, <- Eds, <- Emo, <- Hmem.
  change (m_cache (model_at st1 m)) with (map (entry_of st1) (o_cache (mobj_at st1 m))).
  rewrite (lookup_find digest st1 _ d I1 Cok Hd1), <- Hz1.
  assert (Hself : cached_ok digest st st1 m).
  { split; [exact I1|]. split; [exact G1|]. split; [rewrite E1; reflexivity|].
    split; [intros j _; unfold mobj_at; rewrite E1; reflexivity|]. rewrite Emo. repeat split. rewrite Hmem. reflexivity. }
  assert (Hfresh : cached_ok digest st (fst (score_fresh rowsum st1 m d z det cache)) m /\
     d_hash (nth d (dss (fst (score_fresh rowsum st1 m d z det cache))) no_dobj) <> None).
  { assert (Hh1 : d_hash (nth d (dss st1) no_dobj) = Some (ds_hash digest (dataset_at st1 d))) by congruence.
    pose proof (fresh_score rowsum digest st1 m d det cache I1 Hm1 Hd1 Hh1) as F. cbv zeta in F. rewrite <- Hz1 in F.
    destruct F as ((A1 & A2 & A3 & A4 & A5 & A6 & A7 & A8) & _). split.
    - split; [exact A1|]. split; [eapply grows_trans; eauto|]. split; [rewrite A3, E1; reflexivity|].
      split; [intros j Hj; rewrite A4 by exact Hj; unfold mobj_at; rewrite E1; reflexivity|].
      rewrite A5, A6, A7, A8, Emo, Hmem. repeat split.
    - destruct A2 as (_ & _ & A2 & _). destruct (A2 d Hd1) as (_ & _ & _ & _ & _ & A). rewrite A; congruence. }
  destruct (cache_lookup st1 (o_cache (mobj_at st1 m)) d z) as [found|er].
  2:{ cbn [fst snd]. split; [exact Hself|]. split; [reflexivity|]. intros u' _. congruence. }
  assert (Hf : (model_at (fst (score_fresh rowsum st1 m d z det cache)) m,
                answer_at (score_fresh rowsum st1 m d z det cache)) =
    (let mm := model_at st1 m in let o := (d, dataset_at st1 d) in
     let with_scorer s :=
       if cache then do c <- scorer_store digest (m_cache mm) o s; Ok (mkModel (m_ens mm) (m_lr mm) (m_base mm) c)
       else Ok mm in
     match with_scorer new_scorer with
     | Err e => (mm, Err e)
     | Ok m1 =>
         match scorer_score rowsum (m_ens mm) (ds_X (snd o)) new_scorer det with
         | Err e => (m1, Err e)
         | Ok (s, _) =>
             let s' := adjust mm det s in
             match with_scorer s' with Err e => (m1, Err e) | Ok m2 => (m2, Ok (answer_of det s')) end
         end
     end)).
  { assert (Hh1 : d_hash (nth d (dss st1) no_dobj) = Some (ds_hash digest (dataset_at st1 d))) by congruence.
    pose proof (fresh_score rowsum digest st1 m d det cache I1 Hm1 Hd1 Hh1) as F. cbv zeta in F. rewrite <- Hz1 in F.
    destruct F as (_ & _ & _ & F). exact F. }
  destruct found as [i|]; cbn [option_map].
  - unfold scorer_at. unfold scorer_of at 1. cbn [sc_partial].
    set (s := nth i (scs st1) empty_sobj) in *.
    replace (is_some (option_map (rows (mem st1)) (s_partial s))) with (is_some (s_partial s))
      by (destruct (s_partial s); reflexivity).
    destruct (det && negb (is_some (s_partial s))).
    + destruct Hfresh as [F1 F2]. split; [exact F1|]. split; [exact Hf|intros; exact F2].
    + cbn [fst snd]. split; [exact Hself|]. split; [|intros; congruence].
      unfold answer_at. cbn [fst snd]. rewrite seen_of. reflexivity.
  - destruct Hfresh as [F1 F2]. split; [exact F1|]. split; [exact Hf|intros; exact F2].
Qed.

(** ** New objects and new arrays *)
Definition fresh_objects st st' : Prop :=
  (forall i x, length (dss st) <= i -> i < length (dss st') ->
     In x (arrays_of_dataset (nth i (dss st') no_dobj)) -> length (mem st) <= x) /\
  (forall i x, length (scs st) <= i -> i < length (scs st') ->
     In x (arrays_of_scorer (nth i (scs st') empty_sobj)) -> length (mem st) <= x).
Lemma fresh_refl st : fresh_objects st st.
Proof. split; intros; lia. Qed.
Lemma fresh_trans a b c : grows a b -> grows b c -> fresh_objects a b -> fresh_objects b c -> fresh_objects a c.
Proof.
  intros ((L1 & _) & L2 & _ & L3 & _) (_ & _ & D & _ & S5) [A1 A2] [B1 B2]. split; intros i x H1 H2 Hx.
  - destruct (Nat.lt_ge_cases i (length (dss b))) as [Hi|Hi].
    + apply (A1 i); auto. rewrite <- (same_dobj_arrays _ _ (D i Hi)). exact Hx.
    + specialize (B1 i x Hi H2 Hx). lia.
  - destruct (Nat.lt_ge_cases i (length (scs b))) as [Hi|Hi].
    + apply (A2 i); auto. rewrite <- (S5 i Hi). exact Hx.
    + specialize (B2 i x Hi H2 Hx). lia.
Qed.

Lemma fresh_of st st' ds' ss' : dss st' = dss st ++ ds' -> scs st' = scs st ++ ss' ->
  (forall d x, In d ds' -> In x (arrays_of_dataset d) -> length (mem st) <= x) ->
  (forall s x, In s ss' -> In x (arrays_of_scorer s) -> length (mem st) <= x) -> fresh_objects st st'.
Proof.
  intros E1 E2 D S0. split; intros i x H1 H2 Hx.
  - rewrite E1 in *. rewrite app_length in H2. rewrite app_nth2 in Hx by lia.
    eapply D; [|exact Hx]. apply nth_In. lia.
  - rewrite E2 in *. rewrite app_length in H2. rewrite app_nth2 in Hx by lia.
    eapply S0; [|exact Hx]. apply nth_In. lia.
Qed.

Lemma install_copy_parts st v : exists h' d',
  install_copy st v = mkState h' (dss st ++ [d']) (scs st) (mos st) /\
  arrays_of_dataset d' = map (fun i => length (mem st) + i) [0; 1; 2; 3] /\ dataset_of h' d' = v.
Proof.
  unfold install_copy, install, alloc. cbn [mem dss scs mos].
  eexists _, _. split; [reflexivity|]. unfold arrays_of_dataset. cbn [d_X d_y d_qids d_offs map].
  rewrite !app_length1. split.
  - repeat (f_equal; try lia).
  - unfold dataset_of. cbn [d_X d_y d_qids d_offs d_nf]. unfold rows, floats, ints.
    set (h := mem st). rewrite <- !app_assoc. cbn [app]. set (h' := h ++ _).
    assert (G : forall i, nth_error h' (length h + i) = nth_error [Rows (ds_X v); Floats (ds_y v); Ints (ds_qids v);
               Ints (map Z.of_nat (ds_offs v))] i).
    { intros i. unfold h'. rewrite nth_error_app2 by lia. f_equal. lia. }
    replace (S (S (S (length h)))) with (length h + 3) by lia.
    replace (S (S (length h))) with (length h + 2) by lia.
    replace (S (length h)) with (length h + 1) by lia.
    pose proof (G 0) as G0. rewrite Nat.add_0_r in G0. rewrite G0, !G. cbn [nth_error].
    rewrite map_of_to. destruct v; reflexivity.
Qed.
Lemma install_copy_fresh st v : fresh_objects st (install_copy st v).
Proof.
  destruct (install_copy_parts st v) as (h' & d' & E & A & _). rewrite E.
  apply (fresh_of st _ [d'] []); cbn [dss scs]; auto.
  - rewrite app_nil_r; reflexivity.
  - intros d x [<-|[]]. rewrite A. cbn [map]. intros [<-|[<-|[<-|[<-|[]]]]]; lia.
  - intros ? ? [].
Qed.

(** A data set made by [subset], [split] or [kfold]. *)
Definition separate st st' : Prop := quiet digest st st' /\ fresh_objects st st'.
Lemma separate_refl st : inv digest st -> separate st st.
Proof. intros I. split; [apply quiet_refl; auto|apply fresh_refl]. Qed.
Lemma separate_trans a b c : separate a b -> separate b c -> separate a c.
Proof.
  intros [A1 A2] [B1 B2]. split; [eapply quiet_trans; eauto|].
  eapply fresh_trans; eauto; [apply A1|apply B1].
Qed.
Lemma install_copy_separate st v : inv digest st -> separate st (install_copy st v).
Proof. intros I. split; [apply install_copy_inv; auto|apply install_copy_fresh]. Qed.
Lemma subset_separate st d q : inv digest st -> separate st (fst (heap_subset st d q)).
Proof.
  intros I. unfold heap_subset. destruct (subset _ _); cbn [fst]; [apply install_copy_separate|apply separate_refl]; auto.
Qed.
Lemma split_separate st d tr va pm : inv digest st -> separate st (fst (heap_split st d tr va pm)).
Proof.
  intros I. unfold heap_split. destruct (split _ _ _ _) as [[[a b] c]|e]; cbn [fst].
  - pose proof (install_copy_separate st a I) as Q1.
    assert (Q2 : separate st (match b with Some v => install_copy (install_copy st a) v | None => install_copy st a end)).
    { destruct b as [v|]; [|exact Q1]. eapply separate_trans; [exact Q1|]. apply install_copy_separate. apply Q1. }
    eapply separate_trans; [exact Q2|]. apply install_copy_separate. apply Q2.
  - apply separate_refl; auto.
Qed.
Lemma kfold_separate st d n q : inv digest st -> separate st (fst (heap_kfold st d n q)).
Proof.
  intros I. unfold heap_kfold. destruct (kfold _ _ _) as [fs|e]; cbn [fst].
  - clear d n q. revert st I. induction fs as [|[[a b] c] fs IH]; intros st I; cbn [fold_left].
    + apply separate_refl; auto.
    + set (st3 := install_copy (install_copy (install_copy st a) b) c).
      assert (Q : separate st st3).
      { unfold st3. pose proof (install_copy_separate st a I) as Q1.
        pose proof (install_copy_separate _ b (proj1 (proj1 Q1))) as Q2.
        pose proof (install_copy_separate _ c (proj1 (proj1 Q2))) as Q3.
        eapply separate_trans; [exact Q1|]. eapply separate_trans; [exact Q2|exact Q3]. }
      eapply separate_trans; [exact Q|]. apply IH. apply Q.
  - apply separate_refl; auto.
Qed.

(** ** deepcopy *)
Lemma copy_dobj_parts st k : exists h' d',
  copy_dobj st k = mkState h' (dss st ++ [d']) (scs st) (mos st) /\
  arrays_of_dataset d' = map (fun i => length (mem st) + i) [0; 1; 2; 3] /\
  dataset_of h' d' = dataset_at st k /\ d_hash d' = d_hash (nth k (dss st) no_dobj) /\
  keeps (mem st) h' /\ length h' = length (mem st) + 4.
Proof.
  destruct (install_copy_parts st (dataset_at st k)) as (h' & d' & E & A & B).
  exists h', (mkDobj (d_X d') (d_y d') (d_qids d') (d_offs d') (d_nf d') (d_hash (nth k (dss st) no_dobj))).
  unfold install_copy, install, alloc in E. cbn [mem dss scs mos] in E.
  injection E as E1 E2. apply app_inv_head in E2. injection E2 as E2.
  split; [|split; [exact A|split; [exact B|split; [reflexivity|]]]].
  - unfold copy_dobj, alloc. fold (dataset_at st k). rewrite <- E1, <- E2. cbn [d_X d_y d_qids d_offs d_nf].
    reflexivity.
  - rewrite <- E1. rewrite <- !app_assoc. split; [apply keeps_app|]. rewrite app_length. reflexivity.
Qed.
Lemma copy_dobj_separate st k : inv digest st -> k < length (dss st) -> separate st (copy_dobj st k).
Proof.
  intros I Hk. destruct (copy_dobj_parts st k) as (h' & d' & E & A & B & C & K & L). rewrite E.
  pose proof (inv_extend digest st h' [d'] [] [] I K) as H. rewrite !app_nil_r in H.
  destruct H as [H1 H2].
  - intros d [<-|[]]. rewrite A. split; [cbn [map]; intros x [<-|[<-|[<-|[<-|[]]]]]; lia|].
    intros z Hz. rewrite B. rewrite C in Hz. destruct I as [_ S0]. apply S0; [apply in_nth_lt; auto|exact Hz].
  - intros ? [].
  - intros ? [].
  - split; [split; [exact H1|split; [exact H2|reflexivity]]|].
    apply (fresh_of st _ [d'] []); cbn [dss scs]; auto; [rewrite app_nil_r; reflexivity| |intros ? ? []].
    intros d x [<-|[]]. rewrite A. cbn [map]. intros [<-|[<-|[<-|[<-|[]]]]]; lia.
Qed.

Lemma copy_opt_ok h b o : keeps h (fst (copy_opt h b o)) /\
  (forall x, In x (opt_list (snd (copy_opt h b o))) ->
     length h <= x < length (fst (copy_opt h b o)) /\ exists a, o = Some a /\ nth_error (fst (copy_opt h b o)) x = Some (b a)) /\
  (is_some (snd (copy_opt h b o)) = is_some o).
Proof.
  destruct o as [a|]; cbn [copy_opt fst snd opt_list].
  - split; [apply keeps_app|]. split; [|reflexivity]. intros x [<-|[]]. rewrite app_length1. split; [lia|].
    exists a. split; [reflexivity|]. apply nth_app_last.
  - split; [apply keeps_refl|]. split; [intros x []|reflexivity].
Qed.

Lemma copy_sobj_parts st k : exists h' s',
  copy_sobj st k = mkState h' (dss st) (scs st ++ [s']) (mos st) /\
  (forall x, In x (arrays_of_scorer s') -> length (mem st) <= x < length h') /\
  scorer_of h' s' = scorer_at st k /\ keeps (mem st) h'.
Proof.
  unfold copy_sobj, scorer_at. set (o := nth k (scs st) empty_sobj).
  destruct (copy_opt_ok (mem st) (fun a => Floats (floats (mem st) a)) (s_y o)) as (K1 & A1 & B1).
  destruct (copy_opt (mem st) (fun a => Floats (floats (mem st) a)) (s_y o)) as [h1 y]. cbn [fst snd] in *.
  destruct (copy_opt_ok h1 (fun a => Rows (rows (mem st) a)) (s_partial o)) as (K2 & A2 & B2).
  destruct (copy_opt h1 (fun a => Rows (rows (mem st) a)) (s_partial o)) as [h2 p]. cbn [fst snd] in *.
  destruct (copy_opt_ok h2 (fun a => IntRows (int_rows (mem st) a)) (s_leaves o)) as (K3 & A3 & B3).
  destruct (copy_opt h2 (fun a => IntRows (int_rows (mem st) a)) (s_leaves o)) as [h3 l]. cbn [fst snd] in *.
  assert (L1 := proj1 K1). assert (L2 := proj1 K2). assert (L3 := proj1 K3).
  exists h3, (mkSobj y p l). split; [reflexivity|]. split; [|split].
  - unfold arrays_of_scorer. cbn [s_y s_partial s_leaves]. intros x Hx. rewrite !in_app_iff in Hx.
    destruct Hx as [Hx|[Hx|Hx]]; [destruct (A1 x Hx) as [? _]|destruct (A2 x Hx) as [? _]|destruct (A3 x Hx) as [? _]]; lia.
  - unfold scorer_of. cbn [s_y s_partial s_leaves]. f_equal.
    + destruct y as [y|], (s_y o) as [a|]; try discriminate B1; [|reflexivity]. cbn [option_map]. f_equal.
      destruct (A1 y (or_introl eq_refl)) as (H1 & a' & E & E'). injection E as <-. unfold floats at 1.
      rewrite (proj2 K3), (proj2 K2), E' by lia. reflexivity.
    + destruct p as [p|], (s_partial o) as [a|]; try discriminate B2; [|reflexivity]. cbn [option_map]. f_equal.
      destruct (A2 p (or_introl eq_refl)) as (H1 & a' & E & E'). injection E as <-. unfold rows at 1.
      rewrite (proj2 K3), E' by lia. reflexivity.
    + destruct l as [l|], (s_leaves o) as [a|]; try discriminate B3; [|reflexivity]. cbn [option_map]. f_equal.
      destruct (A3 l (or_introl eq_refl)) as (H1 & a' & E & E'). injection E as <-. unfold int_rows at 1.
      rewrite E' by lia. reflexivity.
  - eapply keeps_trans; [exact K1|]. eapply keeps_trans; eauto.
Qed.
Lemma copy_sobj_separate st k : inv digest st -> separate st (copy_sobj st k).
Proof.
  intros I. destruct (copy_sobj_parts st k) as (h' & s' & E & A & B & K). rewrite E.
  pose proof (inv_extend digest st h' [] [s'] [] I K) as H. rewrite !app_nil_r in H.
  destruct H as [H1 H2].
  - intros ? [].
  - intros s [<-|[]] x Hx. apply A in Hx. lia.
  - intros ? [].
  - split; [split; [exact H1|split; [exact H2|reflexivity]]|].
    apply (fresh_of st _ [] [s']); cbn [dss scs]; auto; [rewrite app_nil_r; reflexivity|intros ? ? []|].
    intros s x [<-|[]] Hx. apply A in Hx. lia.
Qed.

Lemma copy_cache_ok c : forall st, inv digest st -> cache_ok st c ->
  separate st (fst (copy_cache st c)) /\
  cache_ok (fst (copy_cache st c)) (snd (copy_cache st c)) /\
  (forall k z s, In (k, z, s) (snd (copy_cache st c)) -> length (dss st) <= k /\ length (scs st) <= s) /\
  map (fun e => contents (entry_of (fst (copy_cache st c)) e)) (snd (copy_cache st c))
    = map (fun e => contents (entry_of st e)) c.
Proof.
  induction c as [|[[k z] s] c IH]; intros st I C; cbn [copy_cache].
  - cbn [fst snd]. split; [apply separate_refl; auto|]. split; [exact C|]. split; [intros ? ? ? []|reflexivity].
  - destruct (C k z s (or_introl eq_refl)) as (Hk & Hs & Hh).
    pose proof (copy_dobj_separate st k I Hk) as Q1.
    set (sta := copy_dobj st k) in *.
    assert (Ia : inv digest sta) by apply Q1.
    pose proof (copy_sobj_separate sta s Ia) as Q2.
    set (stb := copy_sobj sta s) in *.
    assert (Qb : separate st stb) by (eapply separate_trans; eauto).
    assert (Ib : inv digest stb) by apply Qb. assert (Gb : grows st stb) by apply Qb.
    assert (Cb : cache_ok stb c).
    { eapply cache_ok_grows; [exact Gb|]. intros k' z' s' H. apply (C k' z' s'). right. exact H. }
    destruct (IH stb Ib Cb) as (R1 & R2 & R3 & R4).
    destruct (copy_cache stb c) as [st2 r]. cbn [fst snd] in *.
    assert (Q : separate st st2) by (eapply separate_trans; eauto).
    assert (Gb2 : grows stb st2) by apply R1.
    destruct (copy_dobj_parts st k) as (h1 & d' & E1 & A1 & B1 & C1 & K1 & L1). fold sta in E1.
    destruct (copy_sobj_parts sta s) as (h2 & s' & E2 & A2 & B2 & K2). fold stb in E2.
    assert (Ld : length (dss stb) = S (length (dss st))).
    { rewrite E2. cbn [dss]. rewrite E1. cbn [dss]. apply app_length1. }
    assert (Ls : length (scs stb) = S (length (scs st))).
    { rewrite E2. cbn [scs]. rewrite E1. cbn [scs]. apply app_length1. }
    split; [exact Q|]. split; [|split].
    + intros k1 z1 s1 [H|H].
      * injection H as <- <- <-. destruct Gb2 as (_ & G2 & G3 & G4 & _). split; [lia|]. split; [lia|].
        assert (Hlt : length (dss st) < length (dss stb)) by lia.
        destruct (G3 _ Hlt) as (_ & _ & _ & _ & _ & G).
        assert (Hd : d_hash (nth (length (dss st)) (dss stb) no_dobj) = Some z).
        { rewrite E2. cbn [dss]. rewrite E1. cbn [dss]. rewrite app_nth2 by lia. rewrite Nat.sub_diag. cbn [nth]. congruence. }
        rewrite G; congruence.
      * apply (R2 k1 z1 s1). exact H.
    + intros k1 z1 s1 [H|H].
      * injection H as <- <- <-. lia.
      * destruct (R3 k1 z1 s1 H). lia.
    + cbn [map]. rewrite R4. f_equal.
      * unfold contents, entry_of. cbn [fst snd]. f_equal.
        { rewrite (dataset_at_grows stb st2) by (auto; try apply Ib; lia).
          rewrite (dataset_at_grows sta stb); [|apply Ia|apply Q2|rewrite E1; cbn [dss]; rewrite app_length1; lia].
          unfold dataset_at at 1. rewrite E1. cbn [dss mem]. rewrite app_nth2 by lia. rewrite Nat.sub_diag. exact B1. }
        { rewrite (scorer_at_grows stb st2) by (auto; try apply Ib; lia).
          rewrite <- (scorer_at_grows st sta) by (auto; solve [apply I | apply Q1]).
          rewrite <- B2. unfold scorer_at. rewrite E2. cbn [scs mem]. rewrite E1. cbn [scs].
          rewrite app_nth2 by lia. rewrite Nat.sub_diag. reflexivity. }
      * apply map_ext_in. intros [[k1 z1] s1] Hin. destruct (C k1 z1 s1 (or_intror Hin)) as (H1 & H2 & _).
        rewrite (entry_of_grows st stb); auto. apply I.
Qed.

Lemma install_model_parts st e lr base c : exists h' m',
  install_model st e lr base c = mkState h' (dss st) (scs st) (mos st ++ [m']) /\
  arrays_of_model m' = map (fun i => length (mem st) + i) [0; 1; 2; 3; 4; 5] /\
  ensemble_of h' m' = e /\ o_lr m' = lr /\ o_base m' = base /\ o_cache m' = c /\
  keeps (mem st) h' /\ length h' = length (mem st) + 6.
Proof.
  unfold install_model, alloc. eexists _, _. split; [reflexivity|].
  set (h := mem st). rewrite <- !app_assoc. cbn [app].
  set (h' := h ++ [Ints (e_root e); Floats (e_weight e); Ints (e_left e);
             Ints (e_right e); Floats (e_value e); Ints (e_feature e)]).
  assert (G : forall i, nth_error h' (length h + i) = nth_error [Ints (e_root e); Floats (e_weight e); Ints (e_left e);
             Ints (e_right e); Floats (e_value e); Ints (e_feature e)] i).
  { intros i. unfold h'. rewrite nth_error_app2 by lia. f_equal. lia. }
  rewrite !app_length. cbn [length].
  split; [|split; [|split; [reflexivity|split; [reflexivity|split; [reflexivity|split; [apply keeps_app|]]]]]].
  - unfold arrays_of_model. cbn [map o_root o_weight o_left o_right o_value o_feature whole v_at].
    repeat (f_equal; try lia).
  - unfold ensemble_of, view_ints, view_floats, ints, floats.
    cbn [o_ntrees o_nnodes o_root o_weight o_left o_right o_value o_feature whole v_at v_len].
    pose proof (G 0) as G0. rewrite Nat.add_0_r in G0. rewrite G0, !G. cbn [nth_error].
    rewrite !firstn_all. destruct e; reflexivity.
  - unfold h'. rewrite app_length. reflexivity.
Qed.

Definition adds_model st st' : Prop :=
  inv digest st' /\ grows st st' /\ exists m', mos st' = mos st ++ [m'].
Lemma adds_model_at st st' j : adds_model st st' -> j < length (mos st) -> mobj_at st' j = mobj_at st j.
Proof. intros (_ & _ & m' & E) H. unfold mobj_at. rewrite E. apply app_nth1; auto. Qed.

Lemma install_model_adds st e lr base c : inv digest st -> cache_ok st c -> adds_model st (install_model st e lr base c).
Proof.
  intros I C. destruct (install_model_parts st e lr base c) as (h' & m' & E & A & _ & _ & _ & Ec & K & L). rewrite E.
  pose proof (inv_extend digest st h' [] [] [m'] I K) as H. rewrite !app_nil_r in H.
  destruct H as [H1 H2].
  - intros ? [].
  - intros ? [].
  - intros m [<-|[]]. rewrite A, Ec. split.
    + cbn [map]. intros x [<-|[<-|[<-|[<-|[<-|[<-|[]]]]]]]; lia.
    + exact C.
  - split; [exact H1|]. split; [exact H2|]. exists m'. reflexivity.
Qed.

Lemma slice_view_firstn {A} n k (L : list A) : firstn (length (slice_to n (firstn k L))) L = slice_to n (firstn k L).
Proof.
  unfold slice_to. set (b := slice_bound _ n). rewrite firstn_firstn, firstn_length.
  rewrite <- (firstn_firstn L (Nat.min b k) (length L)) at 1. rewrite firstn_all. reflexivity.
Qed.

Lemma prune_mobj_of h mo n :
  match prune_mobj h mo n with
  | Ok mo' => arrays_of_model mo' = arrays_of_model mo /\ o_lr mo' = o_lr mo /\ o_base mo' = o_base mo /\
              (o_cache mo' = o_cache mo \/ o_cache mo' = []) /\
              forall st, mem st = h -> prune_model (model_of st mo) n = Ok (model_of st mo')
  | Err e => forall st, mem st = h -> prune_model (model_of st mo) n = Err e
  end.
Proof.
  unfold prune_mobj. destruct (o_ntrees mo <=? n)%Z eqn:En.
  - repeat split; auto. intros st Hst. unfold prune_model, model_of. cbn [m_ens ensemble_of e_ntrees]. rewrite En. reflexivity.
  - destruct (py_get (view_ints h (o_root mo)) n) as [s|er] eqn:Eg; cbn [bind].
    + repeat split; auto. intros st Hst. unfold prune_model, model_of, ensemble_of, prune_arrays.
      cbn [m_ens e_ntrees e_root e_weight e_left e_right e_value e_feature m_lr m_base m_cache].
      rewrite En, Hst, Eg. cbn [bind o_ntrees o_nnodes o_root o_weight o_left o_right o_value o_feature o_lr o_base o_cache map].
      unfold view_ints, view_floats, slice_view. cbn [v_at v_len]. rewrite !slice_view_firstn. reflexivity.
    + intros st Hst. unfold prune_model, model_of, ensemble_of, prune_arrays. cbn [m_ens e_ntrees e_root].
      rewrite En, Hst, Eg. reflexivity.
Qed.

Lemma upd_last {A} (l : list A) x y : upd (l ++ [x]) (length l) y = l ++ [y].
Proof. induction l as [|a l IH]; [reflexivity|]. cbn [app length upd]. rewrite IH. reflexivity. Qed.

Lemma copy_ok st m n : inv digest st -> m < length (mos st) ->
  let r := heap_copy st m n in let j := length (mos st) in
  inv digest (fst r) /\ grows st (fst r) /\ fresh_objects st (fst r) /\
  match copy (model_at st m) n with
  | Err e => snd r = Err e /\ mos (fst r) = mos st
  | Ok mm =>
      snd r = Ok tt /\ (exists m', mos (fst r) = mos st ++ [m']) /\
      m_ens (model_at (fst r) j) = m_ens mm /\ m_lr (model_at (fst r) j) = m_lr mm /\
      m_base (model_at (fst r) j) = m_base mm /\
      map contents (m_cache (model_at (fst r) j)) = map contents (m_cache mm) /\
      (forall x, In x (arrays_of_model (mobj_at (fst r) j)) -> length (mem st) <= x) /\
      (forall k z s, In (k, z, s) (o_cache (mobj_at (fst r) j)) -> length (dss st) <= k /\ length (scs st) <= s)
  end.
Proof.
  intros I Hm. cbv zeta. unfold heap_copy. set (mo := mobj_at st m).
  assert (Hmo : In mo (mos st)) by (apply in_nth_lt; auto).
  assert (IV := I). destruct IV as [(V1 & V2 & V3) S0]. destruct (V3 mo Hmo) as [Am Cm].
  destruct (copy_cache_ok (o_cache mo) st I Cm) as (Q & C1 & F1 & E1).
  destruct (copy_cache st (o_cache mo)) as [st1 c]. cbn [fst snd] in *.
  assert (I1 : inv digest st1) by apply Q. assert (G1 : grows st st1) by apply Q.
  assert (M1 : mos st1 = mos st) by apply Q.
  pose proof (install_model_adds st1 (ensemble_of (mem st) mo) (o_lr mo) (o_base mo) c I1 C1) as A2.
  destruct (install_model_parts st1 (ensemble_of (mem st) mo) (o_lr mo) (o_base mo) c) as (h' & m' & E2 & Ar & En & Lr & Ba & Ca & K2 & L2).
  set (st2 := install_model st1 (ensemble_of (mem st) mo) (o_lr mo) (o_base mo) c) in *.
  destruct A2 as (I2 & G2 & _).
  assert (G : grows st st2) by (eapply grows_trans; eauto).
  assert (F : fresh_objects st st2).
  { eapply fresh_trans; [exact G1|exact G2|apply Q|]. apply (fresh_of st1 st2 [] []); try (intros ? ? []);
      rewrite E2; cbn [dss scs]; rewrite app_nil_r; reflexivity. }
  assert (Ej : mobj_at st2 (length (mos st)) = m').
  { unfold mobj_at. rewrite E2. cbn [mos]. rewrite M1. rewrite app_nth2 by lia. rewrite Nat.sub_diag. reflexivity. }
  assert (Ms2 : mos st2 = mos st ++ [m']) by (rewrite E2; cbn [mos]; rewrite M1; reflexivity).
  assert (Lm : length (mem st) <= length (mem st1)) by apply (proj1 (proj1 G1)).
  assert (Hfresh : forall x, In x (arrays_of_model m') -> length (mem st) <= x).
  { intros x. rewrite Ar. cbn [map]. intros [<-|[<-|[<-|[<-|[<-|[<-|[]]]]]]]; lia. }
  assert (Econt : map contents (map (entry_of st2) c) = map contents (map (entry_of st) (o_cache mo))).
  { rewrite (cache_grows st1 st2) by (auto; apply I1). rewrite !map_map. exact E1. }
  assert (Em2 : model_of st2 m' = mkModel (ensemble_of (mem st) mo) (o_lr mo) (o_base mo) (map (entry_of st2) c)).
  { unfold model_of. rewrite Lr, Ba, Ca. f_equal. rewrite E2. cbn [mem]. exact En. }
  destruct n as [n|]; cbn [copy].
  - rewrite Ej. pose proof (prune_mobj_of (mem st2) m' n) as P.
    assert (Pm : forall mm, prune_model (model_at st m) n = mm ->
       match prune_model (model_of st2 m') n, mm with
       | Ok a, Ok b => m_ens a = m_ens b /\ m_lr a = m_lr b /\ m_base a = m_base b /\
                       map contents (m_cache a) = map contents (m_cache b)
       | Err a, Err b => a = b
       | _, _ => False end).
    { intros mm <-. rewrite Em2. unfold model_at, model_of. fold mo. unfold prune_model. cbn [m_ens].
      destruct (e_ntrees (ensemble_of (mem st) mo) <=? n)%Z; [cbn [m_ens m_lr m_base m_cache]; auto|].
      destruct (prune_arrays (ensemble_of (mem st) mo) n); cbn [bind]; auto. }
    destruct (prune_mobj (mem st2) m' n) as [mo'|er].
    + destruct P as (P1 & P2 & P3 & P4 & P5). specialize (P5 st2 eq_refl).
      set (st3 := mkState (mem st2) (dss st2) (scs st2) (upd (mos st2) (length (mos st)) mo')).
      assert (Ms3 : mos st3 = mos st ++ [mo']).
      { unfold st3. cbn [mos]. rewrite Ms2. apply upd_last. }
      assert (E3 : mobj_at st3 (length (mos st)) = mo').
      { unfold mobj_at. rewrite Ms3. rewrite app_nth2 by lia. rewrite Nat.sub_diag. reflexivity. }
      cbn [fst snd]. split; [|split; [exact G|split; [exact F|]]].
      * destruct I2 as [(W1 & W2 & W3) T]. split; [split; [exact W1|split; [exact W2|]]|exact T].
        intros x Hx. rewrite Ms3 in Hx. apply in_app_or in Hx. destruct Hx as [Hx|[<-|[]]].
        { apply W3. rewrite Ms2. apply in_or_app. left. exact Hx. }
        { destruct (W3 m') as [B1 B2]; [rewrite Ms2; apply in_or_app; right; left; reflexivity|].
          split; [rewrite P1; exact B1|]. destruct P4 as [->| ->]; [exact B2|intros ? ? ? []]. }
      * specialize (Pm _ eq_refl). rewrite P5 in Pm.
        destruct (prune_model (model_at st m) n) as [mm|er]; [|contradiction].
        destruct Pm as (R1 & R2 & R3 & R4).
        split; [reflexivity|]. split; [exists mo'; exact Ms3|].
        unfold model_at. rewrite E3. change (model_of st3 mo') with (model_of st2 mo').
        split; [exact R1|]. split; [exact R2|]. split; [exact R3|]. split; [exact R4|]. split.
        { rewrite P1. exact Hfresh. }
        { destruct P4 as [->| ->]; [rewrite Ca; exact F1|intros ? ? ? []]. }
    + specialize (P st2 eq_refl). specialize (Pm _ eq_refl). rewrite P in Pm. cbn [fst snd].
      set (st3 := mkState (mem st2) (dss st2) (scs st2) (mos st)).
      destruct (prune_model (model_at st m) n) as [mm|er']; [contradiction|]. subst er'.
      split; [|split; [exact G|split; [exact F|split; reflexivity]]].
      destruct I2 as [(W1 & W2 & W3) T]. split; [split; [exact W1|split; [exact W2|]]|exact T].
      intros x Hx. apply W3. rewrite Ms2. apply in_or_app. left. exact Hx.
  - cbn [fst snd]. split; [exact I2|]. split; [exact G|]. split; [exact F|].
    split; [reflexivity|]. split; [exists m'; exact Ms2|].
    unfold model_at. rewrite Ej, Em2. cbn [m_ens m_lr m_base m_cache]. fold mo. unfold model_of at 1 2 3 4. cbn [m_ens m_lr m_base m_cache].
    split; [reflexivity|]. split; [reflexivity|]. split; [reflexivity|]. split; [exact Econt|]. split; [exact Hfresh|].
    rewrite Ca. exact F1.
Qed.

(** ** Steps *)
Lemma write_inv st x b : inv digest st -> ~ guarded st x ->
  inv digest (mkState (write (mem st) x b) (dss st) (scs st) (mos st)).
Proof.
  intros [(V1 & V2 & V3) S0] Hg.
  assert (L : length (write (mem st) x b) = length (mem st)) by apply upd_length.
  assert (Hi : forall l, in_memory st l -> in_memory (mkState (write (mem st) x b) (dss st) (scs st) (mos st)) l).
  { intros l H y Hy. cbn [mem]. rewrite L. apply H; auto. }
  split; [split; [|split]|].
  - intros d Hd. apply Hi, V1, Hd.
  - intros s Hs. apply Hi, V2, Hs.
  - intros m Hm. destruct (V3 m Hm) as [A B]. split; [apply Hi, A|exact B].
  - intros d z Hd Hz. cbn [dss mem] in *. rewrite (S0 d z Hd Hz). f_equal. symmetry. apply dataset_agree.
    apply agree_write. intros Hx. apply Hg. left. exists d. split; [exact Hd|]. split; [congruence|exact Hx].
Qed.
Lemma write_dataset st x b i : inv digest st -> i < length (dss st) -> ~ guarded st x ->
  d_hash (nth i (dss st) no_dobj) <> None ->
  dataset_at (mkState (write (mem st) x b) (dss st) (scs st) (mos st)) i = dataset_at st i.
Proof.
  intros I Hi Hg Hh. unfold dataset_at. cbn [mem dss]. apply dataset_agree. apply agree_write.
  intros Hx. apply Hg. left. eexists. split; [apply in_nth_lt; exact Hi|]. split; [exact Hh|exact Hx].
Qed.
Lemma write_model st x b m : inv digest st -> m < length (mos st) -> ~ guarded st x ->
  model_at (mkState (write (mem st) x b) (dss st) (scs st) (mos st)) m = model_at st m.
Proof.
  intros I Hm Hg. set (st' := mkState _ _ _ _). unfold model_at. change (mobj_at st' m) with (mobj_at st m).
  set (mo := mobj_at st m). assert (Hmo : In mo (mos st)) by (apply in_nth_lt; auto).
  assert (IV := I). destruct IV as [(V1 & V2 & V3) S0]. destruct (V3 mo Hmo) as [A C].
  unfold model_of. f_equal.
  - apply ensemble_agree. apply agree_write. intros Hx. apply Hg. right. left. exists mo. auto.
  - apply map_ext_in. intros [[k z] s] Hin. destruct (C k z s Hin) as (H1 & H2 & H3).
    unfold entry_of. cbn [fst snd]. f_equal; [f_equal|].
    + apply write_dataset; auto. congruence.
    + unfold scorer_at. cbn [mem scs st']. apply scorer_agree. apply agree_write.
      intros Hx. apply Hg. right. right. exists mo, k, z, s. auto.
Qed.

Lemma clear_ok st m : inv digest st -> m < length (mos st) -> inv digest (heap_clear st m) /\ grows st (heap_clear st m).
Proof. intros I Hm. apply set_cache_inv; auto. intros ? ? ? []. Qed.

Lemma step_ok st a : inv digest st -> allowed st a ->
  inv digest (step rowsum digest st a) /\
  (~ is_write a -> grows st (step rowsum digest st a)) /\
  length (mem st) <= length (mem (step rowsum digest st a)) /\
  length (dss st) <= length (dss (step rowsum digest st a)) /\
  length (mos st) <= length (mos (step rowsum digest st a)) /\
  (forall m, m < length (mos st) ->
     model_at (step rowsum digest st a) m = score_after rowsum digest (model_at st m) (calls rowsum digest st [a] m)).
Proof.
  intros I [He Ha].
  assert (Hq : forall st', quiet digest st st' -> inv digest st' /\ (~ is_write a -> grows st st') /\
     length (mem st) <= length (mem st') /\ length (dss st) <= length (dss st') /\ length (mos st) <= length (mos st') /\
     forall m, m < length (mos st) -> model_at st' m = model_at st m).
  { intros st' Q. assert (Q' := Q). destruct Q' as (A & B & C). assert (B' := B). destruct B' as ((B1 & _) & B2 & _).
    split; [exact A|]. split; [intros _; exact B|]. split; [exact B1|]. split; [exact B2|].
    split; [rewrite C; lia|]. intros m Hm. apply quiet_model; auto. }
  assert (Hadd : forall st', adds_model st st' -> inv digest st' /\ (~ is_write a -> grows st st') /\
     length (mem st) <= length (mem st') /\ length (dss st) <= length (dss st') /\ length (mos st) <= length (mos st') /\
     forall m, m < length (mos st) -> model_at st' m = model_at st m).
  { intros st' Q. assert (Q' := Q). destruct Q' as (A & B & m' & C). assert (B' := B). destruct B' as ((B1 & _) & B2 & _).
    split; [exact A|]. split; [intros _; exact B|]. split; [exact B1|]. split; [exact B2|].
    split; [rewrite C, app_length1; lia|]. intros m Hm. apply model_at_grows; auto. eapply adds_model_at; eauto. }
  destruct a as [b|x b|nf X y ids|d q|d fs|d tr va pm|d n q|e lr base|m d det cache|m|m n];
    cbn [step calls exists_for is_write app] in *;
    try (unfold score_after; cbn [fold_left]).
  - apply Hq. destruct (inv_alloc digest st b I) as [A B]. split; [exact A|]. split; [exact B|reflexivity].
  - split; [apply write_inv; auto|]. split; [tauto|]. cbn [mem dss mos]. unfold write. rewrite upd_length.
    repeat split; auto. intros m Hm. apply (write_model st x b m); auto.
  - apply Hq. apply make_dataset_quiet; tauto.
  - apply Hq. apply subset_quiet; auto.
  - apply Hq. apply subset_features_quiet; auto.
  - apply Hq. apply split_quiet; auto.
  - apply Hq. apply kfold_quiet; auto.
  - apply Hadd. apply install_model_adds; auto. intros ? ? ? [].
  - destruct He as [Hm Hd]. destruct (score_sim st m d det cache I Hm Hd) as ((A & B & C & D & E) & F & _).
    assert (B' := B). destruct B' as ((B1 & _) & B2 & _).
    split; [exact A|]. split; [intros _; exact B|]. split; [exact B1|]. split; [exact B2|]. split; [rewrite C; lia|].
    intros j Hj. destruct (Nat.eqb_spec m j) as [<-|Hne].
    + cbn [app fold_left score_step]. rewrite <- F. reflexivity.
    + cbn [app fold_left]. apply model_at_grows; auto.
  - destruct (clear_ok st m I He) as [A B]. assert (B' := B). destruct B' as ((B1 & _) & B2 & _).
    split; [exact A|]. split; [intros _; exact B|]. split; [exact B1|]. split; [exact B2|].
    split; [unfold heap_clear, set_cache; cbn [mos]; rewrite upd_length; lia|].
    intros j Hj. destruct (Nat.eqb_spec m j) as [<-|Hne].
    + cbn [app fold_left score_step]. unfold model_at, heap_clear. rewrite set_cache_at by exact He. rewrite Nat.eqb_refl. reflexivity.
    + cbn [app fold_left]. apply model_at_grows; auto. unfold heap_clear. rewrite set_cache_at by exact He.
      destruct (Nat.eqb_spec m j); [contradiction|reflexivity].
  - destruct (copy_ok st m n I He) as (A & B & _ & C).
    destruct (copy (model_at st m) n) as [mm|er].
    + destruct C as (_ & [m' C] & _). apply Hadd. split; [exact A|]. split; [exact B|]. exists m'. exact C.
    + destruct C as [_ C]. apply Hq. split; [exact A|]. split; [exact B|exact C].
Qed.

(** ** Programs *)
Lemma run_ok p : forall st, inv digest st -> careful rowsum digest st p ->
  inv digest (run rowsum digest st p) /\ length (dss st) <= length (dss (run rowsum digest st p)) /\
  length (mos st) <= length (mos (run rowsum digest st p)) /\
  (forall m, m < length (mos st) -> model_at (run rowsum digest st p) m
     = score_after rowsum digest (model_at st m) (calls rowsum digest st p m)) /\
  (forall i, i < length (dss st) -> d_hash (nth i (dss st) no_dobj) <> None ->
     dataset_at (run rowsum digest st p) i = dataset_at st i).
Proof.
  induction p as [|a p IH]; intros st I C.
  - cbn [run fold_left]. split; [exact I|]. repeat split; auto.
  - destruct C as [Ca Cp]. destruct (step_ok st a I Ca) as (A & B & L1 & L2 & L3 & M).
    destruct (IH _ A Cp) as (A' & L2' & L3' & M' & D').
    change (run rowsum digest st (a :: p)) with (run rowsum digest (step rowsum digest st a) p).
    split; [exact A'|]. split; [lia|]. split; [lia|]. split.
    + intros m Hm. rewrite M' by lia. rewrite M by exact Hm. unfold score_after. rewrite <- fold_left_app.
      cbn [calls]. rewrite app_nil_r. reflexivity.
    + intros i Hi Hh.
      assert (Hh' : d_hash (nth i (dss (step rowsum digest st a)) no_dobj) <> None /\
                    dataset_at (step rowsum digest st a) i = dataset_at st i).
      { assert (Hw : is_write a \/ ~ is_write a) by (destruct a; cbn; tauto). destruct Hw as [Hw|Hw].
        - destruct a as [?|x b| | | | | | | | |]; try contradiction. destruct Ca as [_ Hg]. split; [exact Hh|].
          apply (write_dataset st x b i); auto.
        - specialize (B Hw). split; [|apply dataset_at_grows; auto; apply I].
          destruct B as (_ & _ & B & _). destruct (B i Hi) as (_ & _ & _ & _ & _ & B6). rewrite B6; auto. }
      rewrite D'; [apply Hh'|lia|apply Hh'].
Qed.

(** ** The answers of a careful client *)
Definition passes (e : ensemble N) (c : scall (N:=N)) : bool :=
  match c with
  | CallScore o _ _ => match check_features e (snd o) with Ok _ => true | Err _ => false end
  | CallClear => true
  end.

Lemma score_keeps_ens (m : model N) o det cache : m_ens (fst (score rowsum digest m o det cache)) = m_ens m.
Proof.
  unfold score.
  destruct (do _ <- check_features (m_ens m) (snd o); scorer_find digest (m_cache m) o) as [found|e]; [|reflexivity].
  destruct (match found with None => None | Some s => if det && negb (is_some (sc_partial s)) then None else Some s end);
    [reflexivity|].
  destruct cache.
  - destruct (scorer_store digest (m_cache m) o new_scorer); cbn [bind]; [|reflexivity].
    destruct (scorer_score rowsum (m_ens m) (ds_X (snd o)) new_scorer det) as [[s y]|]; [|reflexivity].
    destruct (scorer_store digest (m_cache m) o _); cbn [bind]; reflexivity.
  - destruct (scorer_score rowsum (m_ens m) (ds_X (snd o)) new_scorer det) as [[s y]|]; reflexivity.
Qed.
Lemma after_keeps_ens hs : forall m : model N, m_ens (score_after rowsum digest m hs) = m_ens m.
Proof.
  induction hs as [|c hs IH]; intros m; [reflexivity|].
  change (score_after rowsum digest m (c :: hs)) with (score_after rowsum digest (score_step rowsum digest m c) hs).
  rewrite IH. destruct c; [apply score_keeps_ens|reflexivity].
Qed.
Lemma after_filter hs : forall m : model N,
  score_after rowsum digest m hs = score_after rowsum digest m (filter (passes (m_ens m)) hs).
Proof.
  induction hs as [|c hs IH]; intros m; [reflexivity|].
  change (score_after rowsum digest m (c :: hs)) with (score_after rowsum digest (score_step rowsum digest m c) hs).
  rewrite IH. cbn [filter].
  assert (E : m_ens (score_step rowsum digest m c) = m_ens m) by (destruct c; [apply score_keeps_ens|reflexivity]).
  rewrite E. destruct (passes (m_ens m) c) eqn:P; [reflexivity|].
  destruct c as [o det cache|]; [|discriminate P]. cbn [passes] in P. cbn [score_step]. unfold score.
  destruct (check_features (m_ens m) (snd o)); [discriminate P|]. cbn [bind fst]. reflexivity.
Qed.

(** A data set that went through [score] keeps its contents until the end. *)
Lemma calls_frozen p m : forall st, inv digest st -> careful rowsum digest st p -> m < length (mos st) ->
  forall o, In o (scored (filter (passes (m_ens (model_at st m))) (calls rowsum digest st p m))) ->
  fst o < length (dss (run rowsum digest st p)) /\ o = (fst o, dataset_at (run rowsum digest st p) (fst o)).
Proof.
  induction p as [|a p IH]; intros st I C Hm o; cbn [calls].
  - intros [].
  - destruct C as [Ca Cp]. destruct (step_ok st a I Ca) as (A & B & L1 & L2 & L3 & M).
    assert (Em : m_ens (model_at (step rowsum digest st a) m) = m_ens (model_at st m)).
    { rewrite M by exact Hm. apply after_keeps_ens. }
    assert (IH' : In o (scored (filter (passes (m_ens (model_at st m))) (calls rowsum digest (step rowsum digest st a) p m))) ->
       fst o < length (dss (run rowsum digest st (a :: p))) /\ o = (fst o, dataset_at (run rowsum digest st (a :: p)) (fst o))).
    { rewrite <- Em. apply IH; auto. lia. }
    rewrite filter_app. unfold scored. rewrite flat_map_app. intros Hin. apply in_app_or in Hin.
    destruct Hin as [Hin|Hin]; [|apply IH'; exact Hin].
    destruct a as [b|x b|nf X y ids|d q|d fs|d tr va pm|d n q|e lr base|m' d det cache|m'|m' n]; try contradiction.
    + destruct (Nat.eqb_spec m' m) as [->|]; [|contradiction]. cbn [filter] in Hin.
      destruct (passes (m_ens (model_at st m)) (CallScore (d, dataset_at st d) det cache)) eqn:P; [|contradiction].
      cbn [flat_map app] in Hin. destruct Hin as [<-|[]]. cbn [fst].
      destruct Ca as [[_ Hd] _].
      destruct (score_sim st m d det cache I Hm Hd) as ((_ & G & _) & _ & Hh).
      cbn [passes snd] in P.
      destruct (check_features (m_ens (model_at st m)) (dataset_at st d)) as [u|]; [|discriminate P].
      specialize (Hh u eq_refl).
      destruct (run_ok p _ A Cp) as (_ & L2' & _ & _ & D').
      change (run rowsum digest st (Score m d det cache :: p))
        with (run rowsum digest (step rowsum digest st (Score m d det cache)) p).
      split; [lia|]. rewrite D'.
      * f_equal. symmetry. apply dataset_at_grows; auto. apply I.
      * lia.
      * exact Hh.
    + exfalso. destruct (Nat.eqb m' m); cbn in Hin; tauto.
Qed.

Lemma incl_scored f (hs : list (scall (N:=N))) o : In o (scored (filter f hs)) -> In o (scored hs).
Proof.
  unfold scored. rewrite !in_flat_map. intros (c & H1 & H2). exists c. split; [|exact H2].
  apply filter_In in H1. tauto.
Qed.

Lemma careful_reduce st p m d det cache : inv digest st -> m < length (mos st) ->
  careful rowsum digest st p -> d < length (dss (run rowsum digest st p)) ->
  let st' := run rowsum digest st p in
  let o := (d, dataset_at st' d) in
  let h := filter (passes (m_ens (model_at st m))) (calls rowsum digest st p m) in
  answer_at (heap_score rowsum digest st' m d det cache)
    = snd (score rowsum digest (score_after rowsum digest (model_at st m) h) o det cache) /\
  (shapes_told digest (o :: scored (calls rowsum digest st p m)) -> distinguishable digest (o :: scored h)) /\
  (forall k, In k (o :: scored h) -> In k (o :: scored (calls rowsum digest st p m))).
Proof.
  intros I Hm C Hd. cbv zeta.
  destruct (run_ok p st I C) as (I' & L2 & L3 & M & D).
  pose proof (calls_frozen p m st I C Hm) as HF.
  set (h := filter (passes (m_ens (model_at st m))) (calls rowsum digest st p m)) in *.
  set (st' := run rowsum digest st p) in *.
  assert (Hsub : forall k, In k ((d, dataset_at st' d) :: scored h) ->
                           In k ((d, dataset_at st' d) :: scored (calls rowsum digest st p m))).
  { intros k [H|H]; [left; exact H|]. right. eapply incl_scored. exact H. }
  split; [|split; [|exact Hsub]].
  - assert (Hm' : m < length (mos st')) by lia.
    destruct (score_sim st' m d det cache I' Hm' Hd) as (_ & F & _).
    rewrite M in F by exact Hm. rewrite after_filter in F. fold h in F.
    rewrite <- F. reflexivity.
  - intros Hs k k' Hk Hk'. split; [|apply Hs; auto].
    intros E.
    assert (Hobj : forall q, In q ((d, dataset_at st' d) :: scored h) -> q = (fst q, dataset_at st' (fst q))).
    { intros q [<-|Hq]; [reflexivity|]. apply HF. exact Hq. }
    rewrite (Hobj k Hk), (Hobj k' Hk'), E. reflexivity.
Qed.
End Programs.

Theorem careful_any {N : num} (rowsum : list N -> N) digest st p m d det cache ts ws :
  (forall a b : N, neqb a b = true <-> a = b) ->
  valid st -> stable digest st -> m < length (mos st) -> o_cache (mobj_at st m) = [] ->
  careful rowsum digest st p -> d < length (dss (run rowsum digest st p)) ->
  laid_out (m_ens (model_at st m)) ts ws -> ts <> [] -> nonneg_features ts ->
  let st' := run rowsum digest st p in
  let o := (d, dataset_at st' d) in
  (forall k, In k (o :: scored (calls rowsum digest st p m)) -> rect (snd k)) ->
  shapes_told digest (o :: scored (calls rowsum digest st p m)) ->
  answer_at (heap_score rowsum digest st' m d det cache)
    = snd (score rowsum digest (model_at st m) o det false)
  \/ (det = false /\ exists y pp l,
        snd (score rowsum digest (model_at st m) o true false) = Ok (Detailed (Some y) (Some pp) (Some l)) /\
        answer_at (heap_score rowsum digest st' m d det cache) = Ok (Basic (Some y))).
Proof.
  intros Hq V S0 Hm Hc C Hd HL Hne Hpos st' o Hr Hs.
  destruct (careful_reduce rowsum digest st p m d det cache (conj V S0) Hm C Hd) as (E & Hdist & Hsub).
  fold st' in E, Hdist, Hsub. fold o in E, Hdist, Hsub. rewrite E.
  eapply C34_any_lemma; eauto.
  unfold model_at, model_of. cbn [m_cache]. rewrite Hc. reflexivity.
Qed.

Theorem careful_exact (rowsum : list R -> R) digest (st : state RE) p m d det cache ts ws :
  (forall l, rowsum l = Rtotal l) ->
  valid st -> stable digest st -> m < length (mos st) -> o_cache (mobj_at st m) = [] ->
  careful (N:=RE) rowsum digest st p -> d < length (dss (run (N:=RE) rowsum digest st p)) ->
  laid_out (m_ens (model_at st m)) ts ws -> ts <> [] -> nonneg_features ts ->
  let st' := run (N:=RE) rowsum digest st p in
  let o := (d, dataset_at st' d) in
  (forall k, In k (o :: scored (calls (N:=RE) rowsum digest st p m)) -> rect (snd k)) ->
  shapes_told (N:=RE) digest (o :: scored (calls (N:=RE) rowsum digest st p m)) ->
  answer_at (heap_score (N:=RE) rowsum digest st' m d det cache)
    = snd (score (N:=RE) rowsum digest (model_at st m) o det false).
Proof.
  intros Hsum V S0 Hm Hc C Hd HL Hne Hpos st' o Hr Hs.
  destruct (careful_reduce (N:=RE) rowsum digest st p m d det cache (conj V S0) Hm C Hd) as (E & Hdist & Hsub).
  fold st' in E, Hdist, Hsub. fold o in E, Hdist, Hsub. rewrite E.
  eapply C34_exact_lemma; eauto.
  unfold model_at, model_of. cbn [m_cache]. rewrite Hc. reflexivity.
Qed.
