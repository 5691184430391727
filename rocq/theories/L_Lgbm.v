(** Proofs: LightGBM files (C40). *)
From Coq Require Import Ascii String List ZArith Lia Bool Permutation.
From Verif Require Import Base Lists Num M_Text M_Svmlight S_Svmlight L_Text L_Svmlight3 M_Dataset M_Ensemble S_Ensemble L_Ensemble L_Ensemble2 M_Loaders M_TextLoaders S_Loaders L_Loaders L_QuickRank L_Dump L_Dump2 L_Arrays.
Import ListNotations.
Local Open Scope Z_scope.

(** ** Lines *)
Lemma spaced_words ws t : spaced ws t -> words t = ws.
Proof.
  induction 1 as [b B|a w ws t A W S IH H]; [apply words_nil; auto|].
  rewrite words_blanks by auto. rewrite words_tok; [congruence|auto|].
  destruct H as [-> |(c & r & -> & Hc)]; [exact I|]. cbn. unfold is_word_char. apply is_space_iff in Hc. rewrite Hc. reflexivity.
Qed.
Lemma key_words_match key ws l : key_words key ws l -> exists t, key_match key l = Some t /\ words t = ws.
Proof.
  intros (t & nl & -> & H & E & S). exists t. split; [|apply spaced_words; auto].
  unfold key_match. rewrite strip_app, before_eol by auto. reflexivity.
Qed.
Lemma key_words_starts key ws l : key_words key ws l -> starts key l.
Proof. intros (t & nl & -> & _). exists (t ++ nl). reflexivity. Qed.
Lemma key_nat_number key n l : key_nat key n l -> key_number key l = Some n.
Proof.
  intros (t & r & -> & D & H). unfold key_number. rewrite strip_app. rewrite (nat_dec_span t n); auto.
  - cbn [fst]. destruct (nat_dec_value _ _ D) as [-> ->]. reflexivity.
  - destruct H as [-> |(c & q & -> & Hc)]; [exact I|]. cbn. apply is_digit_false. exact Hc.
Qed.
Lemma key_nat_starts key n l : key_nat key n l -> starts key l.
Proof. intros (t & r & -> & _). exists (t ++ r). reflexivity. Qed.
Lemma starts_other key key' l : starts key l -> (forall r, strip (lit key') (lit key ++ r) = None) ->
  key_match key' l = None /\ key_number key' l = None.
Proof. intros (r & ->) H. unfold key_match, key_number. rewrite H. auto. Qed.
Lemma starts_match key l : starts key l -> exists t, key_match key l = Some t.
Proof. intros (r & ->). unfold key_match. rewrite strip_app. eauto. Qed.
Lemma not_starts key l : ~ starts key l -> key_match key l = None /\ key_number key l = None.
Proof.
  intros H. unfold key_match, key_number. destruct (strip (lit key) l) as [r|] eqn:E; auto.
  exfalso. apply H. exists r. apply strip_spec in E. exact E.
Qed.
Lemma mapM_forall2 {A B} (f : A -> res B) l l' : Forall2 (fun x y => f x = Ok y) l l' -> mapM f l = Ok l'.
Proof. induction 1 as [|x y l l' H _ IH]; cbn [mapM]; auto. rewrite H. cbn [bind]. rewrite IH. reflexivity. Qed.
Lemma ints_mapM ws ns : Forall2 int_dec ws ns -> mapM py_int ws = Ok ns.
Proof.
  intros H. apply mapM_forall2. induction H as [|w n ws ns Hn _ IH]; constructor; auto. eapply py_int_dec; [apply padded_refl|exact Hn].
Qed.

Lemma among_lines {T} {P : T -> Prop} {cs ls} : among P cs ls -> exists cl, Forall2 (fun (c : T -> Prop) l => c l) cs cl /\
  (forall B (f : B -> T -> res B) s, (forall l, P l -> forall s, f s l = Ok s) -> foldM f ls s = foldM f cl s) /\
  (forall B (f : B -> T -> B) s, (forall l, P l -> forall s, f s l = s) -> fold_left f ls s = fold_left f cl s).
Proof.
  induction 1 as [|l cs ls Hl _ (cl & H1 & H2 & H3)|c l cs ls Hl _ (cl & H1 & H2 & H3)].
  - exists []. auto.
  - exists cl. split; auto. split.
    + intros B f s H. cbn [foldM]. rewrite H by auto. cbn [bind]. auto.
    + intros B f s H. cbn [fold_left]. rewrite H by auto. auto.
  - exists (l :: cl). split; [constructor; auto|]. split.
    + intros B f s H. cbn [foldM]. destruct (f s l); cbn [bind]; auto.
    + intros B f s H. cbn [fold_left]. auto.
Qed.

Ltac other H :=
  match type of H with starts _ ?l =>
    match goal with
    | |- context [key_match ?k l] => rewrite (proj1 (starts_other _ k l H (fun _ => eq_refl)))
    | |- context [key_number ?k l] => rewrite (proj2 (starts_other _ k l H (fun _ => eq_refl)))
    end
  end.

Section Lgbm.
Context {N : num}.
Variable rd : text -> option N.
Notation cell := (cell_of rd).
Notation conv := (convert cell cell).
Notation step := (lgbm_step rd).

Lemma other_step l : lgbm_other rd l -> forall s, step s l = Ok s.
Proof.
  intros H s. destruct H as [H|ds H D|ws H D|H]; unfold lgbm_step.
  - assert (K : forall k, In k lgbm_keys -> key_match k l = None /\ key_number k l = None) by (intros k Hk; apply not_starts; auto).
    rewrite (proj2 (K "Tree="%string ltac:(cbn; tauto))).
    rewrite (proj1 (K "split_feature="%string ltac:(cbn; tauto))), (proj1 (K "threshold="%string ltac:(cbn; tauto))),
      (proj1 (K "left_child="%string ltac:(cbn; tauto))), (proj1 (K "right_child="%string ltac:(cbn; tauto))),
      (proj1 (K "shrinkage="%string ltac:(cbn; tauto))), (proj1 (K "leaf_value="%string ltac:(cbn; tauto))),
      (proj1 (K "decision_type="%string ltac:(cbn; tauto))), (proj1 (K "default_value="%string ltac:(cbn; tauto))),
      (proj1 (K "has_categorical="%string ltac:(cbn; tauto))). reflexivity.
  - destruct H as (ws & H & W). pose proof (key_words_starts _ _ _ H) as S. destruct (key_words_match _ _ _ H) as (t & M & E).
    repeat other S. rewrite M, E, (ints_mapM ws ds W). cbn [bind].
    replace (forallb (fun d => d =? 2) ds) with true; [reflexivity|]. symmetry. apply forallb_forall. intros d Hd.
    rewrite Forall_forall in D. rewrite (D d Hd). reflexivity.
  - pose proof (key_words_starts _ _ _ H) as S. destruct (key_words_match _ _ _ H) as (t & M & E).
    repeat other S. rewrite M, E.
    assert (K : exists vs, mapM (fun w => of_option ValueError (rd w)) ws = Ok vs /\ forallb (fun v => neqb v nzero) vs = true).
    { clear - D. induction D as [|w ws (v & H1 & H2) _ (vs & IH1 & IH2)]; [exists []; auto|].
      exists (v :: vs). cbn [mapM]. rewrite H1. cbn [of_option bind]. rewrite IH1. cbn [bind forallb]. rewrite H2, IH2. auto. }
    destruct K as (vs & K1 & K2). rewrite K1. cbn [bind]. rewrite K2. reflexivity.
  - destruct H as (ws & H & W). pose proof (key_words_starts _ _ _ H) as S. destruct H as (t & nl & El & NN & E & SP).
    repeat other S. assert (M : key_match "has_categorical=" l = Some t) by (subst l; unfold key_match; rewrite strip_app, before_eol; auto).
    rewrite M. inversion W as [|w n ws' ns' W1 W2]; subst. inversion W2; subst. inversion SP as [|a w' ws'' t' A1 A2 A3 A4]; subst.
    assert (T : blanks t') by (inversion A3; subst; assumption).
    rewrite (py_int_dec (a ++ w ++ t') w 0); [reflexivity| |exact W1]. exists a, t'. auto.
Qed.

Definition cnt (c : Z * Z) (l : text) : Z * Z :=
  match key_number "num_leaves=" l with
  | Some n => (fst c, snd c + n)
  | None => match key_match "split_feature=" l with
            | Some t => (fst c, snd c + Z.of_nat (length (words t)))
            | None => match key_number "Tree=" l with Some _ => (fst c + 1, snd c) | None => c end
            end
  end.
Lemma other_count l : lgbm_other rd l -> forall c, cnt c l = c.
Proof.
  intros H c. destruct H as [H|ds H D|ws H D|H]; unfold cnt.
  - assert (K : forall k, In k lgbm_keys -> key_match k l = None /\ key_number k l = None) by (intros k Hk; apply not_starts; auto).
    rewrite (proj2 (K "num_leaves="%string ltac:(cbn; tauto))), (proj1 (K "split_feature="%string ltac:(cbn; tauto))), (proj2 (K "Tree="%string ltac:(cbn; tauto))). reflexivity.
  - destruct H as (ws & H & W). pose proof (key_words_starts _ _ _ H) as S. repeat other S. reflexivity.
  - pose proof (key_words_starts _ _ _ H) as S. repeat other S. reflexivity.
  - destruct H as (ws & H & W). pose proof (key_words_starts _ _ _ H) as S. repeat other S. reflexivity.
Qed.

Definition arr_good (p : arrays * tree Z text) : Prop :=
  arr_tree (fst p) (snd p) /\ fits16 (snd p) /\ Forall (readable rd) (a_threshold (fst p)) /\ Forall (readable rd) (a_leaf (fst p)).
Lemma cells_mapM ws : Forall (readable rd) ws -> mapM (read_cell rd) ws = Ok (map cell ws).
Proof. induction 1 as [|w ws H _ IH]; cbn [mapM map]; auto. rewrite read_cell_ok by auto. cbn [bind]. rewrite IH. reflexivity. Qed.
Lemma zget_map {A B} (f : A -> B) l i : zget (map f l) i = match zget l i with Some v => Some (f v) | None => None end.
Proof. unfold zget. destruct (i <? 0); auto. rewrite nth_error_map. destruct (nth_error l _); reflexivity. Qed.
Lemma forall2_int_len ws ns : Forall2 int_dec ws ns -> length ws = length ns.
Proof. induction 1; cbn; auto. Qed.

Lemma count_blocks ps : Forall arr_good ps -> forall k cl c, Forall2 (fun (c : text -> Prop) l => c l) (lgbm_blocks k (map fst ps)) cl ->
  fold_left cnt cl c = (fst c + Z.of_nat (length ps), snd c + Z.of_nat (list_sum (map (fun p => size (snd p)) ps))).
Proof.
  induction 1 as [|[a t] ps G _ IH]; intros k cl c F; cbn [map lgbm_blocks fst] in F.
  - inversion F; subst. cbn. destruct c; cbn; f_equal; lia.
  - unfold lgbm_block in F. cbn [app] in F.
    inversion F as [|? l1 ? cl1 L1 F1]; subst; clear F. inversion F1 as [|? l2 ? cl2 L2 F2]; subst; clear F1.
    inversion F2 as [|? l3 ? cl3 L3 F3]; subst; clear F2. inversion F3 as [|? l4 ? cl4 L4 F4]; subst; clear F3.
    inversion F4 as [|? l5 ? cl5 L5 F5]; subst; clear F4. inversion F5 as [|? l6 ? cl6 L6 F6]; subst; clear F5.
    inversion F6 as [|? l7 ? cl7 L7 F7]; subst; clear F6. inversion F7 as [|? l8 ? cl8 L8 F8]; subst; clear F7.
    cbn [fold_left].
    assert (Q1 : forall c, cnt c l1 = (fst c + 1, snd c)).
    { intros d. pose proof (key_nat_starts _ _ _ L1) as S1. pose proof (key_nat_number _ _ _ L1) as N1. unfold cnt.
      other S1. rewrite (proj2 (starts_other _ "num_leaves=" l1 S1 (fun _ => eq_refl))), N1. reflexivity. }
    assert (Q2 : forall c, cnt c l2 = (fst c, snd c + Z.of_nat (length (a_leaf a)))).
    { intros d. pose proof (key_nat_number _ _ _ L2) as N2. unfold cnt. rewrite N2. reflexivity. }
    assert (Q3 : forall c, cnt c l3 = (fst c, snd c + Z.of_nat (length (a_feature a)))).
    { intros d. destruct L3 as (w3 & L3 & W3). pose proof (key_words_starts _ _ _ L3) as S3. destruct (key_words_match _ _ _ L3) as (t3 & M3 & E3).
      unfold cnt. rewrite (proj2 (starts_other _ "num_leaves=" l3 S3 (fun _ => eq_refl))), M3, E3, (forall2_int_len _ _ W3). reflexivity. }
    assert (Q : forall l, starts "threshold=" l \/ starts "left_child=" l \/ starts "right_child=" l \/ starts "leaf_value=" l \/ starts "shrinkage=" l ->
                forall c, cnt c l = c).
    { intros l Hl d. destruct Hl as [S|[S|[S|[S|S]]]]; unfold cnt; repeat other S; reflexivity. }
    rewrite Q1, Q2, Q3. cbn [fst snd].
    rewrite (Q l4) by (left; eapply key_words_starts; eauto).
    rewrite (Q l5) by (right; left; destruct L5 as (w5 & L5 & _); eapply key_words_starts; eauto).
    rewrite (Q l6) by (right; right; left; destruct L6 as (w6 & L6 & _); eapply key_words_starts; eauto).
    rewrite (Q l7) by (right; right; right; left; eapply key_words_starts; eauto).
    rewrite (Q l8) by (right; right; right; right; exact L8).
    rewrite (IH _ _ _ F8). cbn [fst snd length map]. rewrite lsum_cons.
    destruct G as ((_ & _ & _ & _ & P & _) & _). cbn [fst snd] in P. rewrite (perm_size t _ _ P).
    f_equal; lia.
Qed.

Lemma lgbm_trees ps : Forall arr_good ps -> forall kn cl root nl ns a ct fs e,
  Forall2 (fun (c : text -> Prop) l => c l) (lgbm_blocks (Z.of_nat kn) (map fst ps)) cl -> a = root + (nl + ns) ->
  sized (Z.of_nat (length (e_left e))) e -> 0 <= a ->
  a + Z.of_nat (list_sum (map (fun p => size (snd p)) ps)) <= Z.of_nat (length (e_left e)) -> blank_from a e ->
  (kn + length ps <= length (e_root e))%nat -> (kn + length ps <= length (e_weight e))%nat ->
  exists s', foldM step cl (mkG e ct root nl ns fs) = Ok s' /\
    chain kn a e (map conv (placed a ps)) (map (fun _ => none) ps) (g_ens s').
Proof.
  induction 1 as [|[p t] ps G _ IH]; intros kn cl root nl ns a ct fs e F Ha SZ H0 Hn BL HR HW; cbn [map lgbm_blocks fst] in F.
  - inversion F; subst. eexists. split; [reflexivity|]. constructor.
  - unfold lgbm_block in F. cbn [app] in F.
    inversion F as [|? l1 ? cl1 L1 F1]; subst; clear F. inversion F1 as [|? l2 ? cl2 L2 F2]; subst; clear F1.
    inversion F2 as [|? l3 ? cl3 L3 F3]; subst; clear F2. inversion F3 as [|? l4 ? cl4 L4 F4]; subst; clear F3.
    inversion F4 as [|? l5 ? cl5 L5 F5]; subst; clear F4. inversion F5 as [|? l6 ? cl6 L6 F6]; subst; clear F5.
    inversion F6 as [|? l7 ? cl7 L7 F7]; subst; clear F6. inversion F7 as [|? l8 ? cl8 L8 F8]; subst; clear F7.
    destruct G as (AT & FT & RT & RL). cbn [fst snd map length placed] in *. rewrite lsum_cons, Nat2Z.inj_add in Hn.
    set (a := root + (nl + ns)) in *. set (st := Z.of_nat (size t)) in *.
    set (sp := Z.of_nat (length (a_feature p))) in *. set (lf := Z.of_nat (length (a_leaf p))) in *.
    assert (PS : st = lf + sp).
    { destruct AT as (_ & _ & _ & _ & P & _). apply perm_size in P. unfold st, lf, sp. lia. }
    pose proof AT as (LT & LL & LR & _).
    set (e1 := mkEns (e_ntrees e) (e_nnodes e) (upd (e_root e) kn a) (e_weight e) (e_left e) (e_right e) (e_value e) (e_feature e)).
    assert (Z1 : sized (Z.of_nat (length (e_left e))) e1) by exact SZ. set (n := Z.of_nat (length (e_left e))) in *.
    destruct (fill_feature_ok (a_feature p) n e1 a Z1 H0) as (e3 & A3 & B3 & C3 & D3); [fold sp; lia|]. injection C3 as C31 C32 C33.
    pose proof (sized_nodes n e1 e3 B3 Z1) as Z3.
    destruct (fill_value_ok (map cell (a_threshold p)) n e3 a Z3 H0) as (e4 & A4 & B4 & C4 & D4); [rewrite map_length; fold sp in LT; lia|]. injection C4 as C41 C42 C43.
    pose proof (sized_nodes n e3 e4 B4 Z3) as Z4.
    destruct (fill_left_ok (map (child_ref a sp) (a_left p)) n e4 a Z4 H0) as (e5 & A5 & B5 & C5 & D5); [rewrite map_length; lia|]. injection C5 as C51 C52 C53.
    pose proof (sized_nodes n e4 e5 B5 Z4) as Z5.
    destruct (fill_right_ok (map (child_ref a sp) (a_right p)) n e5 a Z5 H0) as (e6 & A6 & B6 & C6 & D6); [rewrite map_length; lia|]. injection C6 as C61 C62 C63.
    pose proof (sized_nodes n e5 e6 B6 Z5) as Z6.
    destruct (fill_value_ok (map cell (a_leaf p)) n e6 (a + sp) Z6) as (e7 & A7 & B7 & C7 & D7); [lia|rewrite map_length; fold lf; lia|]. injection C7 as C71 C72 C73.
    set (e8 := mkEns (e_ntrees e7) (e_nnodes e7) (e_root e7) (upd (e_weight e7) kn none) (e_left e7) (e_right e7) (e_value e7) (e_feature e7)).
    assert (N7 : nodes_only e1 e7).
    { eapply nodes_trans; [exact B3|]. eapply nodes_trans; [exact B4|]. eapply nodes_trans; [exact B5|]. eapply nodes_trans; [exact B6|exact B7]. }
    destruct N7 as (M1 & M2 & M3 & M4 & M5 & M6 & M7 & M8). unfold e1 in M1, M2, M3, M4, M5, M6, M7, M8.
    cbn [e_ntrees e_nnodes e_root e_weight e_left e_right e_value e_feature] in M1, M2, M3, M4, M5, M6, M7, M8.
    assert (TD : tree_done kn a e e8 (relabel (arr_index a sp) (conv t)) none).
    { eapply (arrays_tree_done rd kn a p e _ e8 t none AT FT eq_refl).
      - unfold nodes_only, e8. cbn [e_ntrees e_nnodes e_root e_weight e_left e_right e_value e_feature]. rewrite M4.
        repeat (split; [assumption || reflexivity|]). assumption.
      - unfold arrays_done, e8. cbn [e_ntrees e_nnodes e_root e_weight e_left e_right e_value e_feature]. fold sp.
        split; [|split; [|split]]; intros j.
        + rewrite C73, C62, C52, C43, D3. reflexivity.
        + rewrite C71, C61, D5, zget_map, C41, C31. destruct (zget (a_left p) (j - a)); reflexivity.
        + rewrite C72, D6, zget_map, C51, C42, C32. destruct (zget (a_right p) (j - a)); reflexivity.
        + rewrite D7, zget_map, C63, C53, D4, zget_map, C33. destruct (zget (a_leaf p) _); [reflexivity|].
          destruct (zget (a_threshold p) _); reflexivity.
      - intros j Hj. apply BL. fold st in Hj. unfold n in *. lia. }
    destruct (IH (S kn) cl8 a lf sp (a + st) (Z.of_nat kn) (Some sp) e8) as (s' & I1 & I2).
    { replace (Z.of_nat (S kn)) with (Z.of_nat kn + 1) by lia. exact F8. } { lia. }
    { eapply done_sized; [exact TD|]. destruct TD as (_ & _ & _ & _ & L & _). rewrite L. exact SZ. }
    { lia. }
    { destruct TD as (_ & _ & _ & _ & L & _). rewrite L. fold n. lia. }
    { pose proof (done_blank _ _ _ _ _ _ TD BL) as K. rewrite size_relabel, size_convert in K. exact K. }
    { destruct TD as (_ & _ & L & _). rewrite L, upd_length. lia. }
    { destruct TD as (_ & _ & _ & L & _). rewrite L, upd_length. lia. }
    exists s'. split.
    + cbn [foldM].
      pose proof (key_nat_number _ _ _ L1) as N1. unfold lgbm_step at 1. rewrite N1. cbn [g_ens g_root g_leaves g_splits g_features g_tree].
      rewrite set_root_ok by lia. cbn [bind]. fold a e1.
      pose proof (key_nat_starts _ _ _ L2) as S2. unfold lgbm_step at 1. repeat other S2. cbn [bind].
      destruct L3 as (w3 & L3 & W3). pose proof (key_words_starts _ _ _ L3) as S3. destruct (key_words_match _ _ _ L3) as (t3 & K3 & E3).
      unfold lgbm_step at 1. repeat other S3. rewrite K3, E3, (ints_mapM _ _ W3). cbn [bind g_ens g_root g_leaves g_splits g_features g_tree].
      rewrite A3. cbn [bind]. fold sp.
      pose proof (key_words_starts _ _ _ L4) as S4. destruct (key_words_match _ _ _ L4) as (t4 & K4 & E4).
      unfold lgbm_step at 1. repeat other S4. rewrite K4, E4, (cells_mapM _ RT). cbn [bind g_ens g_root g_leaves g_splits g_features g_tree].
      rewrite A4. cbn [bind].
      destruct L5 as (w5 & L5 & W5). pose proof (key_words_starts _ _ _ L5) as S5. destruct (key_words_match _ _ _ L5) as (t5 & K5 & E5).
      unfold lgbm_step at 1. repeat other S5. rewrite K5, E5, (ints_mapM _ _ W5). cbn [bind g_ens g_root g_leaves g_splits g_features g_tree].
      rewrite A5. cbn [bind].
      destruct L6 as (w6 & L6 & W6). pose proof (key_words_starts _ _ _ L6) as S6. destruct (key_words_match _ _ _ L6) as (t6 & K6 & E6).
      unfold lgbm_step at 1. repeat other S6. rewrite K6, E6, (ints_mapM _ _ W6). cbn [bind g_ens g_root g_leaves g_splits g_features g_tree].
      rewrite A6. cbn [bind].
      pose proof (key_words_starts _ _ _ L7) as S7. destruct (key_words_match _ _ _ L7) as (t7 & K7 & E7).
      unfold lgbm_step at 1. repeat other S7. rewrite K7, E7, (cells_mapM _ RL). cbn [bind g_ens g_root g_leaves g_splits g_features g_tree].
      rewrite A7. cbn [bind of_option]. rewrite map_length. fold lf.
      destruct (starts_match _ _ L8) as (t8 & K8). unfold lgbm_step at 1. repeat other L8. rewrite K8. cbn [g_ens g_root g_leaves g_splits g_features g_tree].
      rewrite set_weight_ok by (rewrite M4; lia). cbn [bind]. fold e8. exact I1.
    + cbn [relabel]. econstructor.
      * rewrite <- relabel_convert. exact TD.
      * rewrite <- relabel_convert, size_relabel, size_convert. exact I2.
Qed.

Lemma placed_sizes ps : forall a, map size (map conv (placed a ps)) = map (fun p => size (snd p)) ps.
Proof. induction ps as [|[p t] ps IH]; intros a; cbn [placed map snd]; auto. rewrite size_convert, size_relabel, IH. reflexivity. Qed.
Lemma placed_length ps : forall a, length (map conv (placed a ps)) = length ps.
Proof. intros a. rewrite map_length. revert a. induction ps as [|[p t] ps IH]; intros a; cbn [placed length]; auto. Qed.

Theorem C40_lemma ps ls f : lgbm_file rd (map fst ps) ls -> file_text f ls -> Forall arr_good ps ->
  exists e, lgbm_load rd f = Ok e /\ laid_out e (map conv (placed 0 ps)) (map (fun _ => none) ps).
Proof.
  intros D F G. destruct (among_lines D) as (cl & C1 & C2 & C3).
  unfold lgbm_load. rewrite (file_lines_text f ls F).
  replace (lgbm_count ls) with (Z.of_nat (length ps), Z.of_nat (list_sum (map (fun p => size (snd p)) ps))).
  2:{ unfold lgbm_count. change (fun c l => _) with cnt. rewrite (C3 _ cnt _ other_count).
      rewrite (count_blocks ps G 0 cl (0, 0) C1). reflexivity. }
  destruct (initialize_ok (N:=N) (length ps) (list_sum (map (fun p => size (snd p)) ps))) as (e0 & I1 & I2 & I3 & I4 & I5 & I6 & I7 & I8).
  rewrite I1. cbn [bind].
  destruct (lgbm_trees ps G 0 cl 0 0 0 0 0 None e0 C1) as (s' & T1 & T2); try lia.
  { rewrite I6. exact I7. } { exact I8. } { rewrite I4, repeat_length. lia. } { rewrite I5, repeat_length. lia. }
  exists (g_ens s'). split.
  - rewrite (C2 _ step _ other_step), T1. reflexivity.
  - eapply chain_laid_out; [exact T2| | | | |]; unfold total_size; rewrite ?placed_length, ?placed_sizes; assumption.
Qed.

(** ** Unsupported models *)
Lemma bad_step l : lgbm_bad rd l -> forall s, step s l = Err AssertionError.
Proof.
  intros H s. destruct H as [ds H D|ws H R D|n H D]; unfold lgbm_step.
  - destruct H as (ws & H & W). pose proof (key_words_starts _ _ _ H) as S. destruct (key_words_match _ _ _ H) as (t & M & E).
    repeat other S. rewrite M, E, (ints_mapM ws ds W). cbn [bind].
    replace (forallb (fun d => d =? 2) ds) with false; [reflexivity|]. symmetry. clear - D. induction D as [d ds Hd|d ds _ IH]; cbn [forallb].
    + destruct (Z.eqb_spec d 2); [contradiction|reflexivity].
    + rewrite IH. apply andb_false_r.
  - pose proof (key_words_starts _ _ _ H) as S. destruct (key_words_match _ _ _ H) as (t & M & E).
    repeat other S. rewrite M, E.
    assert (K : exists vs, mapM (fun w => of_option ValueError (rd w)) ws = Ok vs /\ forallb (fun v => neqb v nzero) vs = false).
    { clear - R D. induction R as [|w ws (v & Hv) R IH]; [inversion D|].
      assert (K : exists vs, mapM (fun w => of_option ValueError (rd w)) ws = Ok vs).
      { clear - R. induction R as [|w ws (v & Hv) _ (vs & IH)]; [exists []; auto|]. exists (v :: vs). cbn [mapM]. rewrite Hv. cbn [of_option bind]. rewrite IH. reflexivity. }
      inversion D as [? ? (v' & H1 & H2)|? ? H1]; subst.
      - destruct K as (vs & K). exists (v' :: vs). cbn [mapM]. rewrite H1. cbn [of_option bind]. rewrite K. cbn [bind forallb]. rewrite H2. auto.
      - destruct (IH H1) as (vs & IH1 & IH2). exists (v :: vs). cbn [mapM]. rewrite Hv. cbn [of_option bind]. rewrite IH1. cbn [bind forallb].
        rewrite IH2. split; [reflexivity|apply andb_false_r]. }
    destruct K as (vs & K1 & K2). rewrite K1. cbn [bind]. rewrite K2. reflexivity.
  - destruct H as (ws & H & W). pose proof (key_words_starts _ _ _ H) as S. destruct H as (t & nl & El & NN & E & SP).
    repeat other S. assert (M : key_match "has_categorical=" l = Some t) by (subst l; unfold key_match; rewrite strip_app, before_eol; auto).
    rewrite M. inversion W as [|w n' ws' ns' W1 W2]; subst. inversion W2; subst. inversion SP as [|a w' ws'' t' A1 A2 A3 A4]; subst.
    assert (T : blanks t') by (inversion A3; subst; assumption).
    rewrite (py_int_dec (a ++ w ++ t') w n); [| |exact W1].
    + cbn [bind]. destruct (Z.eqb_spec n 0); [contradiction|reflexivity].
    + exists a, t'. auto.
Qed.
Lemma bad_count l : lgbm_bad rd l -> forall c, cnt c l = c.
Proof.
  intros H c. destruct H as [ds H D|ws H R D|n H D]; unfold cnt.
  - destruct H as (ws & H & W). pose proof (key_words_starts _ _ _ H) as S. repeat other S. reflexivity.
  - pose proof (key_words_starts _ _ _ H) as S. repeat other S. reflexivity.
  - destruct H as (ws & H & W). pose proof (key_words_starts _ _ _ H) as S. repeat other S. reflexivity.
Qed.
(** A valid file with such a line anywhere in it is rejected. *)
Theorem C40_rejected_lemma ps la l lb f : lgbm_file rd (map fst ps) (la ++ lb) -> file_text f (la ++ l :: lb) -> Forall arr_good ps ->
  lgbm_bad rd l -> lgbm_load rd f = Err AssertionError.
Proof.
  intros D F G B. destruct (among_lines D) as (cl & C1 & C2 & C3).
  unfold lgbm_load. rewrite (file_lines_text f _ F).
  replace (lgbm_count (la ++ l :: lb)) with (Z.of_nat (length ps), Z.of_nat (list_sum (map (fun p => size (snd p)) ps))).
  2:{ unfold lgbm_count. change (fun c l => _) with cnt. rewrite fold_left_app. cbn [fold_left]. rewrite bad_count by exact B.
      rewrite <- fold_left_app. rewrite (C3 _ cnt _ other_count).
      rewrite (count_blocks ps G 0 cl (0, 0) C1). reflexivity. }
  destruct (initialize_ok (N:=N) (length ps) (list_sum (map (fun p => size (snd p)) ps))) as (e0 & I1 & I2 & I3 & I4 & I5 & I6 & I7 & I8).
  rewrite I1. cbn [bind].
  destruct (lgbm_trees ps G 0 cl 0 0 0 0 0 None e0 C1) as (s' & T1 & T2); try lia.
  { rewrite I6. exact I7. } { exact I8. } { rewrite I4, repeat_length. lia. } { rewrite I5, repeat_length. lia. }
  rewrite <- (C2 _ step _ other_step) in T1. rewrite foldM_app in T1 |- *.
  destruct (foldM step la _) as [s1|x]; cbn [bind] in *; [|discriminate].
  cbn [foldM]. rewrite bad_step by exact B. reflexivity.
Qed.
(** Whatever the rest of the file, it is not loaded. *)
Lemma bad_in l ls : In l ls -> lgbm_bad rd l -> forall s s', foldM step ls s <> Ok s'.
Proof.
  induction ls as [|x ls IH]; intros I B s s' E; [destruct I|]. destruct I as [->|I]; cbn [foldM] in E.
  - rewrite bad_step in E by exact B. discriminate.
  - destruct (step s x); cbn [bind] in E; [|discriminate]. eapply IH; eauto.
Qed.
Theorem C40_never_lemma ls l f e : file_text f ls -> In l ls -> lgbm_bad rd l -> lgbm_load rd f <> Ok e.
Proof.
  intros F I B. unfold lgbm_load. rewrite (file_lines_text f ls F). destruct (lgbm_count ls) as [nt nn].
  destruct (initialize nt nn) as [e0|x]; cbn [bind]; [|discriminate].
  destruct (foldM step ls _) as [s|x] eqn:E; cbn [bind]; [|discriminate]. exfalso. eapply bad_in; eauto.
Qed.
End Lgbm.
