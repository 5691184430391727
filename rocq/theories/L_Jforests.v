(** Proofs: Jforests documents (C44). *)
From Coq Require Import Ascii String List ZArith Lia Bool Permutation.
From Verif Require Import Base Lists Num M_Text M_Svmlight S_Svmlight L_Text L_Svmlight3 M_Dataset M_Ensemble S_Ensemble L_Ensemble L_Ensemble2 M_Loaders M_TextLoaders S_Loaders L_Loaders L_QuickRank L_Dump L_Dump2 L_Arrays L_Lgbm.
Import ListNotations.
Local Open Scope Z_scope.

Lemma split_from_word w : ~ In " "%char w -> forall cur, split_from cur w = [rev cur ++ w] /\
  (forall t, split_from cur (w ++ " "%char :: t) = (rev cur ++ w) :: split_from [] t).
Proof.
  induction w as [|c w IH]; intros H cur; cbn [split_from app].
  - rewrite app_nil_r. split; reflexivity.
  - destruct (Ascii.eqb_spec c " "); [exfalso; apply H; left; auto|].
    destruct (IH ltac:(intros I; apply H; right; auto) (c :: cur)) as [A1 A2]. cbn [rev] in *. rewrite <- app_assoc in *. auto.
Qed.
Lemma joined_split ws t : joined ws t -> split_blank t = ws.
Proof.
  unfold split_blank. induction 1 as [w H|w ws t H _ IH].
  - apply (split_from_word w H []).
  - rewrite (proj2 (split_from_word w H [])), IH. reflexivity.
Qed.
Lemma joined_nonempty ws t : joined ws t -> ws <> [].
Proof. destruct 1; discriminate. Qed.
Lemma foldM_flat {A B C} (f : B -> C -> res B) (g : A -> list C) l : forall s,
  foldM f (flat_map g l) s = foldM (fun s x => foldM f (g x) s) l s.
Proof.
  induction l as [|x l IH]; intros s; cbn [flat_map foldM]; auto. rewrite foldM_app. destruct (foldM f (g x) s); cbn [bind]; auto.
Qed.
Lemma fill_words {N : num} {A B} (put : ensemble N -> Z -> A -> res (ensemble N)) (set : ensemble N -> Z -> B -> res (ensemble N)) ws vs :
  Forall2 (fun w v => forall e i, put e i w = set e i v) ws vs -> forall e base, fill put base ws e = fill set base vs e.
Proof.
  intros H e base. unfold fill. f_equal. revert e base. induction H as [|w v ws vs H _ IH]; intros e base; cbn [foldM]; auto.
  cbn [fst snd]. rewrite H. destruct (set e base v); cbn [bind]; auto.
Qed.

Section Jf.
Context {N : num}.
Variable rd : text -> option N.
Notation cell := (cell_of rd).
Notation conv := (convert cell cell).
Notation step := (jf_step rd).

Lemma jf_quiet_step ev : ~ In (x_tag (ev_elem ev)) jf_tags -> forall s, step s ev = Ok s.
Proof.
  intros H s. destruct ev as [x|x]; cbn [ev_elem] in H; unfold jf_step;
    rewrite ?(has_tag_not "Tree" x jf_tags H), ?(has_tag_not "SplitFeatures" x jf_tags H), ?(has_tag_not "LeftChildren" x jf_tags H),
      ?(has_tag_not "RightChildren" x jf_tags H), ?(has_tag_not "OriginalThresholds" x jf_tags H), ?(has_tag_not "LeafOutputs" x jf_tags H)
      by (cbn; tauto); reflexivity.
Qed.
Lemma jf_quiet x : quiet jf_tags x -> forall s, foldM step (events x) s = Ok s.
Proof.
  intros Q s. apply foldM_id. apply quiet_events in Q. eapply Forall_impl; [|exact Q]. intros ev. apply jf_quiet_step.
Qed.
Definition jcnt (c : Z * Z) (ev : event) : res (Z * Z) :=
  match ev with
  | EEnd k => if has_tag "Tree" k then Ok (fst c + 1, snd c)
              else if has_tag "SplitFeatures" k || has_tag "LeafOutputs" k
              then do t <- text_of k; Ok (fst c, snd c + Z.of_nat (length (split_blank t)))
              else Ok c
  | EStart _ => Ok c
  end.
Lemma jf_quiet_count ev : ~ In (x_tag (ev_elem ev)) jf_tags -> forall s, jcnt s ev = Ok s.
Proof.
  intros H s. destruct ev as [x|x]; cbn [ev_elem] in H; unfold jcnt; auto.
  rewrite (has_tag_not "Tree" x jf_tags H), (has_tag_not "SplitFeatures" x jf_tags H), (has_tag_not "LeafOutputs" x jf_tags H) by (cbn; tauto). reflexivity.
Qed.
Lemma jf_quiet_counts x : quiet jf_tags x -> forall s, foldM jcnt (events x) s = Ok s.
Proof.
  intros Q s. apply foldM_id. apply quiet_events in Q. eapply Forall_impl; [|exact Q]. intros ev. apply jf_quiet_count.
Qed.

(** Weight, arrays, tree. *)
Definition jf_good (p : text * arrays * tree Z text) : Prop :=
  readable rd (fst (fst p)) /\ arr_good rd (snd (fst p), snd p).
Notation arr p := (snd (fst p)).

Ltac five F := 
  let cl1 := fresh "cl" in let cl2 := fresh "cl" in let cl3 := fresh "cl" in let cl4 := fresh "cl" in let cl5 := fresh "cl" in
  let F1 := fresh in let F2 := fresh in let F3 := fresh in let F4 := fresh in let F5 := fresh in
  inversion F as [|? x1 ? cl1 L1 F1]; subst; clear F; inversion F1 as [|? x2 ? cl2 L2 F2]; subst; clear F1;
  inversion F2 as [|? x3 ? cl3 L3 F3]; subst; clear F2; inversion F3 as [|? x4 ? cl4 L4 F4]; subst; clear F3;
  inversion F4 as [|? x5 ? cl5 L5 F5]; subst; clear F4; inversion F5; subst; clear F5.

Lemma jf_count_tree w a x c : jf_tree (w, a) x ->
  foldM jcnt (events x) c = Ok (fst c + 1, snd c + Z.of_nat (length (a_feature a)) + Z.of_nat (length (a_leaf a))).
Proof.
  intros (attrs & txt & kids & -> & W & AM). cbn [snd] in AM. destruct (among_lines AM) as (cl & C1 & C2 & _).
  unfold jf_block in C1. five C1.
  rewrite events_eq. cbn [foldM jcnt bind]. rewrite foldM_app, foldM_flat.
  rewrite (C2 _ _ c jf_quiet_counts).
  destruct L1 as (w1 & (a1 & t1 & -> & J1) & I1). destruct L2 as (w2 & (a2 & t2 & -> & J2) & I2). destruct L3 as (w3 & (a3 & t3 & -> & J3) & I3).
  destruct L4 as (a4 & t4 & -> & J4). destruct L5 as (a5 & t5 & -> & J5).
  cbn [foldM]. rewrite !events_eq. cbn [flat_map app].
  cbn [foldM jcnt bind has_tag x_tag String.eqb Ascii.eqb eqb orb text_of x_text of_option].
  rewrite (joined_split _ _ J1), (joined_split _ _ J5). cbn [fst snd]. rewrite (forall2_int_len _ _ I1). reflexivity.
Qed.
Lemma jf_count_trees ps : forall xs c, Forall2 (fun (f : xml -> Prop) x => f x) (map jf_tree (map fst ps)) xs -> Forall jf_good ps ->
  foldM (fun s x => foldM jcnt (events x) s) xs c =
  Ok (fst c + Z.of_nat (length ps), snd c + Z.of_nat (list_sum (map (fun p => size (snd p)) ps))).
Proof.
  induction ps as [|[[w a] t] ps IH]; intros xs c F G; cbn [map fst] in F; inversion F as [|? x ? xs' F1 F2]; subst.
  - cbn. destruct c; cbn. do 2 f_equal; lia.
  - inversion G as [|? ? G1 G2]; subst. cbn [foldM]. rewrite (jf_count_tree w a x c F1). cbn [bind].
    rewrite (IH xs' _ F2 G2). cbn [fst snd length map]. rewrite lsum_cons.
    destruct G1 as (_ & (_ & _ & _ & _ & P & _) & _). cbn [fst snd] in P. rewrite (perm_size t _ _ P). do 2 f_equal; lia.
Qed.

Lemma jf_tree_ok k root lv sp a e w p t x : jf_tree (w, p) x -> readable rd w -> arr_good rd (p, t) -> a = root + (lv + sp) ->
  sized (Z.of_nat (length (e_left e))) e -> 0 <= a -> a + Z.of_nat (size t) <= Z.of_nat (length (e_left e)) -> blank_from a e ->
  (k < length (e_root e))%nat -> (k < length (e_weight e))%nat ->
  exists e', foldM step (events x) (mkJ e (Z.of_nat k - 1) root lv sp) =
      Ok (mkJ e' (Z.of_nat k) a (Z.of_nat (length (a_leaf p))) (Z.of_nat (length (a_feature p)))) /\
    tree_done k a e e' (relabel (arr_index a (Z.of_nat (length (a_feature p)))) (conv t)) (cell w).
Proof.
  intros (attrs & txt & kids & -> & W & AM) RW (AT & FT & RT & RL) Ha SZ H0 Hn BL HR HW. cbn [fst snd] in *.
  destruct (among_lines AM) as (cl & C1 & C2 & _). unfold jf_block in C1. revert Ha. five C1. intros Ha.
  set (ns := Z.of_nat (length (a_feature p))) in *. set (nl := Z.of_nat (length (a_leaf p))) in *.
  assert (PS : Z.of_nat (size t) = nl + ns).
  { destruct AT as (_ & _ & _ & _ & P & _). apply perm_size in P. unfold nl, ns. lia. }
  pose proof AT as (LT & LL & LR & _).
  set (e1 := mkEns (e_ntrees e) (e_nnodes e) (upd (e_root e) k a) (upd (e_weight e) k (cell w)) (e_left e) (e_right e) (e_value e) (e_feature e)).
  assert (Z1 : sized (Z.of_nat (length (e_left e))) e1) by exact SZ. set (n := Z.of_nat (length (e_left e))) in *.
  destruct (fill_feature_ok (a_feature p) n e1 a Z1 H0) as (e3 & A3 & B3 & C3 & D3); [fold ns; lia|]. injection C3 as C31 C32 C33.
  pose proof (sized_nodes n e1 e3 B3 Z1) as Z3.
  destruct (fill_left_ok (map (child_ref a ns) (a_left p)) n e3 a Z3 H0) as (e4 & A4 & B4 & C4 & D4); [rewrite map_length; lia|]. injection C4 as C41 C42 C43.
  pose proof (sized_nodes n e3 e4 B4 Z3) as Z4.
  destruct (fill_right_ok (map (child_ref a ns) (a_right p)) n e4 a Z4 H0) as (e5 & A5 & B5 & C5 & D5); [rewrite map_length; lia|]. injection C5 as C51 C52 C53.
  pose proof (sized_nodes n e4 e5 B5 Z4) as Z5.
  destruct (fill_value_ok (map cell (a_threshold p)) n e5 a Z5 H0) as (e6 & A6 & B6 & C6 & D6); [rewrite map_length; lia|]. injection C6 as C61 C62 C63.
  pose proof (sized_nodes n e5 e6 B6 Z5) as Z6.
  destruct (fill_value_ok (map cell (a_leaf p)) n e6 (a + ns) Z6) as (e7 & A7 & B7 & C7 & D7); [lia|rewrite map_length; fold nl; lia|]. injection C7 as C71 C72 C73.
  assert (N7 : nodes_only e1 e7).
  { eapply nodes_trans; [exact B3|]. eapply nodes_trans; [exact B4|]. eapply nodes_trans; [exact B5|]. eapply nodes_trans; [exact B6|exact B7]. }
  exists e7. split.
  - rewrite events_eq. cbn [foldM]. unfold jf_step at 1. cbn [has_tag x_tag String.eqb Ascii.eqb eqb x_attrs j_ens j_tree j_root j_leaves j_splits].
    replace (Z.of_nat k - 1 + 1) with (Z.of_nat k) by lia. rewrite <- Ha. rewrite set_root_ok by lia. cbn [bind].
    rewrite W. cbn [of_option bind]. rewrite read_cell_ok by exact RW. cbn [bind].
    rewrite set_weight_ok by (cbn [e_weight]; lia). cbn [bind e_ntrees e_nnodes e_root e_weight e_left e_right e_value e_feature]. fold e1.
    rewrite foldM_app, foldM_flat. rewrite (C2 _ _ _ jf_quiet).
    destruct L1 as (w1 & (a1 & t1 & -> & J1) & I1). destruct L2 as (w2 & (a2 & t2 & -> & J2) & I2). destruct L3 as (w3 & (a3 & t3 & -> & J3) & I3).
    destruct L4 as (a4 & t4 & -> & J4). destruct L5 as (a5 & t5 & -> & J5).
    assert (PI : forall ws zs, Forall2 int_dec ws zs -> Forall2 (fun w v => py_int w = Ok v) ws zs).
    { induction 1 as [|? ? ? ? Hn' _ IH]; constructor; auto. eapply py_int_dec; [apply padded_refl|exact Hn']. }
    assert (FV : forall ws, Forall (readable rd) ws -> forall e b, fill (put_value rd) b ws e = fill set_value b (map cell ws) e).
    { intros ws H e0 b. apply fill_words. induction H as [|? ? Hw _ IH]; cbn [map]; constructor; auto.
      intros. unfold put_value. rewrite read_cell_ok by exact Hw. reflexivity. }
    cbn [foldM]. rewrite !events_eq. cbn [flat_map app].
    cbn [foldM jf_step bind has_tag x_tag String.eqb Ascii.eqb eqb text_of x_text of_option j_ens j_tree j_root j_leaves j_splits].
    rewrite (joined_split _ _ J1). rewrite (forall2_int_len _ _ I1).
    rewrite (fill_words put_feature set_feature w1 (a_feature p)).
    2:{ specialize (PI _ _ I1). clear - PI. induction PI as [|? ? ? ? H _ IH]; constructor; auto. intros. unfold put_feature. rewrite H. reflexivity. }
    rewrite A3. cbn [foldM jf_step bind has_tag x_tag String.eqb Ascii.eqb eqb text_of x_text of_option j_ens j_tree j_root j_leaves j_splits].
    rewrite (joined_split _ _ J2). fold ns.
    rewrite (fill_words (put_left a ns) set_left w2 (map (child_ref a ns) (a_left p))).
    2:{ specialize (PI _ _ I2). clear - PI. induction PI as [|? ? ? ? H _ IH]; constructor; auto. intros. unfold put_left. rewrite H. reflexivity. }
    rewrite A4. cbn [foldM jf_step bind has_tag x_tag String.eqb Ascii.eqb eqb text_of x_text of_option j_ens j_tree j_root j_leaves j_splits].
    rewrite (joined_split _ _ J3).
    rewrite (fill_words (put_right a ns) set_right w3 (map (child_ref a ns) (a_right p))).
    2:{ specialize (PI _ _ I3). clear - PI. induction PI as [|? ? ? ? H _ IH]; constructor; auto. intros. unfold put_right. rewrite H. reflexivity. }
    rewrite A5. cbn [foldM jf_step bind has_tag x_tag String.eqb Ascii.eqb eqb text_of x_text of_option j_ens j_tree j_root j_leaves j_splits].
    rewrite (joined_split _ _ J4), (FV _ RT).
    rewrite A6. cbn [foldM jf_step bind has_tag x_tag String.eqb Ascii.eqb eqb text_of x_text of_option j_ens j_tree j_root j_leaves j_splits].
    rewrite (joined_split _ _ J5), (FV _ RL).
    rewrite A7. cbn [foldM jf_step bind has_tag x_tag String.eqb Ascii.eqb eqb text_of x_text of_option j_ens j_tree j_root j_leaves j_splits].
    reflexivity.
  - eapply (arrays_tree_done rd k a p e e1 e7 t (cell w) AT FT eq_refl N7).
    + unfold arrays_done. fold ns. split; [|split; [|split]]; intros j.
      * rewrite C73, C63, C52, C42, D3. reflexivity.
      * rewrite C71, C61, C51, D4, zget_map, C31. destruct (zget (a_left p) (j - a)); reflexivity.
      * rewrite C72, C62, D5, zget_map, C41, C32. destruct (zget (a_right p) (j - a)); reflexivity.
      * rewrite D7, zget_map, D6, zget_map, C53, C43, C33. destruct (zget (a_leaf p) _); [reflexivity|].
        destruct (zget (a_threshold p) _); reflexivity.
    + intros j Hj. apply BL. fold n. lia.
Qed.

Notation strip_w ps := (map (fun p : text * arrays * tree Z text => (snd (fst p), snd p)) ps).
Lemma jf_trees ps : forall xs, Forall2 (fun (f : xml -> Prop) x => f x) (map jf_tree (map fst ps)) xs -> Forall jf_good ps ->
  forall k root lv sp a e, a = root + (lv + sp) ->
  sized (Z.of_nat (length (e_left e))) e -> 0 <= a ->
  a + Z.of_nat (list_sum (map (fun p => size (snd p)) ps)) <= Z.of_nat (length (e_left e)) -> blank_from a e ->
  (k + length ps <= length (e_root e))%nat -> (k + length ps <= length (e_weight e))%nat ->
  exists s', foldM (fun s x => foldM step (events x) s) xs (mkJ e (Z.of_nat k - 1) root lv sp) = Ok s' /\
    chain k a e (map conv (placed a (strip_w ps))) (map (fun p => cell (fst (fst p))) ps) (j_ens s').
Proof.
  induction ps as [|[[w p] t] ps IH]; intros xs F G k root lv sp a e Ha SZ H0 Hn BL HR HW; cbn [map fst] in F; inversion F as [|? x ? xs' F1 F2]; subst.
  - eexists. split; [reflexivity|constructor].
  - inversion G as [|? ? [G1 G2] G3]; subst. cbn [fst snd] in G1, G2. cbn [map length snd fst placed] in *. rewrite lsum_cons, Nat2Z.inj_add in Hn.
    set (a := root + (lv + sp)) in *.
    destruct (jf_tree_ok k root lv sp a e w p t x F1 G1 G2 eq_refl SZ H0) as (e1 & E1 & TD); try lia; auto.
    assert (PS : Z.of_nat (size t) = Z.of_nat (length (a_leaf p)) + Z.of_nat (length (a_feature p))).
    { destruct G2 as ((_ & _ & _ & _ & P & _) & _). cbn [fst snd] in P. apply perm_size in P. lia. }
    destruct (IH xs' F2 G3 (S k) a (Z.of_nat (length (a_leaf p))) (Z.of_nat (length (a_feature p))) (a + Z.of_nat (size t)) e1) as (s' & I1 & I2).
    { lia. }
    { eapply done_sized; [exact TD|]. destruct TD as (_ & _ & _ & _ & L & _). rewrite L. exact SZ. }
    { lia. }
    { destruct TD as (_ & _ & _ & _ & L & _). rewrite L. lia. }
    { pose proof (done_blank _ _ _ _ _ _ TD BL) as K. rewrite size_relabel, size_convert in K. exact K. }
    { destruct TD as (_ & _ & L & _). rewrite L, upd_length. lia. }
    { destruct TD as (_ & _ & _ & L & _). rewrite L, upd_length. lia. }
    exists s'. split.
    + cbn [foldM]. rewrite E1. cbn [bind]. replace (Z.of_nat (S k) - 1) with (Z.of_nat k) in I1 by lia. exact I1.
    + econstructor; rewrite <- relabel_convert; [exact TD|]. rewrite size_relabel, size_convert. exact I2.
Qed.

Theorem C44_lemma ps x : jf_doc (map fst ps) x -> Forall jf_good ps ->
  exists e, jf_load rd x = Ok e /\ laid_out e (map conv (placed 0 (strip_w ps))) (map (fun p => cell (fst (fst p))) ps).
Proof.
  intros D G. destruct D as [tag attrs txt kids H1 H2]. destruct (among_lines H2) as (cl & C1 & C2 & _).
  assert (CE : jf_count (Elem tag attrs txt kids) = Ok (Z.of_nat (length ps), Z.of_nat (list_sum (map (fun p => size (snd p)) ps)))).
  { unfold jf_count. change (fun c ev => _) with jcnt. rewrite events_eq. cbn [tl]. rewrite foldM_app, foldM_flat.
    rewrite (C2 _ _ _ jf_quiet_counts), (jf_count_trees ps cl (0, 0) C1 G). cbn [bind fst snd foldM].
    rewrite jf_quiet_count by exact H1. reflexivity. }
  unfold jf_load. rewrite CE. cbn [bind fst snd].
  destruct (initialize_ok (N:=N) (length ps) (list_sum (map (fun p => size (snd p)) ps))) as (e0 & I1 & I2 & I3 & I4 & I5 & I6 & I7 & I8).
  rewrite I1. cbn [bind].
  destruct (jf_trees ps cl C1 G 0 0 0 0 0 e0) as (s' & T1 & T2); try lia.
  { rewrite I6. exact I7. } { exact I8. } { rewrite I4, repeat_length. lia. } { rewrite I5, repeat_length. lia. }
  exists (j_ens s'). split.
  - rewrite events_eq. cbn [tl]. rewrite foldM_app, foldM_flat, (C2 _ _ _ jf_quiet).
    change (Z.of_nat 0 - 1) with (-1) in T1. rewrite T1. cbn [bind foldM]. rewrite jf_quiet_step by exact H1. reflexivity.
  - eapply chain_laid_out; [exact T2| | | | |]; unfold total_size; rewrite ?placed_length, ?placed_sizes, ?map_map, ?map_length; assumption.
Qed.
End Jf.
