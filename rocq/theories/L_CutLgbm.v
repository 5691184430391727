(** Proofs: LightGBM files that end inside the block of a tree (C97). *)
From Coq Require Import Ascii String List ZArith Lia Bool Permutation.
From Verif Require Import Base Lists Num M_Text M_Svmlight S_Svmlight L_Text L_Svmlight3 M_Dataset M_Ensemble S_Ensemble L_Ensemble L_Ensemble2 M_Loaders M_TextLoaders S_Loaders L_Loaders L_QuickRank L_Dump L_Dump2 L_Arrays L_Lgbm S_CutModel S_CutLgbm L_CutModel L_CutModel3.
Import ListNotations.
Local Open Scope Z_scope.

(** ** Complete trees followed by others *)
Section Tail.
Context {N : num}.
Lemma chain_tail ts : forall k a (e : ensemble N) ws e' R W RT WT, chain k a e ts ws e' ->
  e_root e = R ++ repeat (-1) (length ts) ++ RT -> e_weight e = W ++ repeat nzero (length ts) ++ WT ->
  length R = k -> length W = k -> blank_from a e ->
  e_ntrees e' = e_ntrees e /\
  e_root e' = R ++ map mark ts ++ RT /\ e_weight e' = W ++ ws ++ WT /\ length ws = length ts /\
  (forall n, sized n e -> sized n e') /\ length (e_left e') = length (e_left e) /\
  (forall j, j < a -> same_cell e e' j) /\ Forall (represents e') ts /\
  Forall (fun t => forall j, In j (marks t) -> j < a + Z.of_nat (list_sum (map size ts))) ts /\ blank_from (a + Z.of_nat (list_sum (map size ts))) e'.
Proof.
  induction ts as [|t ts IH]; intros k a e ws e' R W RT WT C HR HW LR LW BL; inversion C; subst; cbn [length repeat app] in *.
  - cbn [map app list_sum fold_right]. rewrite Z.add_0_r. do 6 (split; [auto|]). split; [intros; apply same_refl|]. split; [constructor|]. split; [constructor|exact BL].
  - match goal with H : tree_done _ _ _ _ _ _ |- _ => pose proof (done_blank _ _ _ _ _ _ H BL) as BL'; pose proof (fun n => done_sized _ _ _ _ _ _ n H) as SZ';
      destruct H as (D1 & D2 & D3 & D4 & D5 & D6 & D7 & D8 & D9 & D10 & D11 & D12) end.
    match goal with H : chain (S _) _ _ _ _ _ |- _ => rename H into C' end.
    rewrite HR, upd_middle in D3. rewrite HW, <- LW, upd_middle in D4.
    destruct (IH _ _ _ _ _ (R ++ [mark t]) (W ++ [w]) RT WT C') as (E1 & E3 & E4 & E5 & E6 & E7 & E10 & E11 & E12 & E13).
    + rewrite <- app_assoc. cbn [app]. rewrite D11. exact D3.
    + rewrite <- app_assoc. exact D4.
    + rewrite app_length. cbn. lia.
    + rewrite app_length. cbn. lia.
    + exact BL'.
    + assert (M : list_sum (map size (t :: ts)) = (size t + list_sum (map size ts))%nat) by reflexivity.
      assert (MM : a + Z.of_nat (size t) + Z.of_nat (list_sum (map size ts)) = a + Z.of_nat (list_sum (map size (t :: ts)))) by (rewrite M; lia).
      split; [congruence|]. split; [rewrite E3, <- app_assoc; reflexivity|].
      split; [rewrite E4, <- app_assoc; reflexivity|]. split; [cbn; lia|].
      split; [auto|]. split; [congruence|].
      split; [intros j Hj; eapply same_trans; [apply D9; lia|apply E10; pose proof (size_pos t); lia]|].
      rewrite <- MM. split; [|split; [|exact E13]].
      * constructor; auto. eapply represents_same; [exact D10|]. intros j Hj. apply E10.
        apply (Permutation_in _ D12) in Hj. apply in_zrange in Hj. lia.
      * constructor; auto. intros j Hj. apply (Permutation_in _ D12) in Hj. apply in_zrange in Hj. lia.
Qed.

(** The last root is one past the arrays. *)
Lemma fault_last (e : ensemble N) row (ts : list (tree Z N)) : forall o y,
  (forall i t, nth_error ts i = Some t -> zget (e_root e) (Z.of_nat (o + i)) = Some (mark t) /\ (exists w, zget (e_weight e) (Z.of_nat (o + i)) = Some w) /\
     stands e t /\ (height t <= length (e_left e))%nat) ->
  zget (e_root e) (Z.of_nat (o + length ts)) = Some (Z.of_nat (length (e_left e))) ->
  foldM (fun y t => do leaf <- exit_node e row t; do s <- leaf_score e t leaf; Ok (nf32 (nadd y s))) (map Z.of_nat (seq o (S (length ts)))) y = Err MemFault.
Proof.
  induction ts as [|t ts IH]; intros o y H M.
  - cbn [length] in M. rewrite Nat.add_0_r in M. cbn [length seq map foldM]. unfold exit_node at 1. rewrite (mem_get_zget _ _ _ M). cbn [bind].
    replace (walk (S (length (e_left e))) e row (Z.of_nat (length (e_left e)))) with (@Err Z MemFault); [reflexivity|]. cbn [walk]. unfold mem_get at 1.
    rewrite zget_nth. replace (nth_error (e_left e) (length (e_left e))) with (@None Z); [reflexivity|]. symmetry. apply nth_error_None. lia.
  - cbn [length]. change (seq o (S (S (length ts)))) with (o :: seq (S o) (S (length ts))). cbn [map foldM].
    destruct (H 0%nat t eq_refl) as (R & (w & W) & C & Hh). rewrite Nat.add_0_r in R, W.
    unfold exit_node at 1. rewrite (mem_get_zget _ _ _ R). cbn [bind].
    destruct (stands_walk_any e row t C (S (length (e_left e))) ltac:(lia)) as [-> | ->]; [|reflexivity]. cbn [bind].
    unfold leaf_score at 1. rewrite (mem_get_zget _ _ _ (stands_exit e row _ C)). cbn [bind]. rewrite (mem_get_zget _ _ _ W). cbn [bind].
    apply (IH (S o)).
    + intros i q Hq. destruct (H (S i) q Hq) as (A & B & D). replace (S o + i)%nat with (o + S i)%nat by lia. auto.
    + replace (S o + length ts)%nat with (o + length (t :: ts))%nat by (cbn [length]; lia). exact M.
Qed.
End Tail.

(** ** One block, line by line *)
Section Cut.
Context {N : num}.
Variable rd : text -> option N.
Notation cell := (cell_of rd).
Notation conv := (convert cell cell).
Notation step := (lgbm_step rd).
Notation cut_file := (cut_file rd).

Lemma step1 k l s : key_nat "Tree=" k l -> step s l = do e1 <- set_root (g_ens s) k (g_root s + (g_leaves s + g_splits s));
  Ok (mkG e1 k (g_root s + (g_leaves s + g_splits s)) (g_leaves s) (g_splits s) (g_features s)).
Proof. intros L. unfold lgbm_step. rewrite (key_nat_number _ _ _ L). reflexivity. Qed.
Lemma step2 k l s : key_nat "num_leaves=" k l -> step s l = Ok s.
Proof. intros L. pose proof (key_nat_starts _ _ _ L) as S. unfold lgbm_step. repeat other S. reflexivity. Qed.
Lemma step3 fs l s : key_ints "split_feature=" fs l -> step s l = do e1 <- fill set_feature (g_root s) fs (g_ens s);
  Ok (mkG e1 (g_tree s) (g_root s) (g_leaves s) (Z.of_nat (length fs)) (Some (Z.of_nat (length fs)))).
Proof.
  intros (w & L & W). pose proof (key_words_starts _ _ _ L) as S. destruct (key_words_match _ _ _ L) as (t & K & E).
  unfold lgbm_step. repeat other S. rewrite K, E, (ints_mapM _ _ W). reflexivity.
Qed.
Lemma step4 ws l s : key_words "threshold=" ws l -> Forall (readable rd) ws -> step s l = do e1 <- fill set_value (g_root s) (map cell ws) (g_ens s);
  Ok (mkG e1 (g_tree s) (g_root s) (g_leaves s) (g_splits s) (g_features s)).
Proof.
  intros L W. pose proof (key_words_starts _ _ _ L) as S. destruct (key_words_match _ _ _ L) as (t & K & E).
  unfold lgbm_step. repeat other S. rewrite K, E, (cells_mapM _ _ W). reflexivity.
Qed.
Lemma step5 cs l s : key_ints "left_child=" cs l -> step s l = do e1 <- fill set_left (g_root s) (map (child_ref (g_root s) (g_splits s)) cs) (g_ens s);
  Ok (mkG e1 (g_tree s) (g_root s) (g_leaves s) (g_splits s) (g_features s)).
Proof.
  intros (w & L & W). pose proof (key_words_starts _ _ _ L) as S. destruct (key_words_match _ _ _ L) as (t & K & E).
  unfold lgbm_step. repeat other S. rewrite K, E, (ints_mapM _ _ W). reflexivity.
Qed.
Lemma step6 cs l s : key_ints "right_child=" cs l -> step s l = do e1 <- fill set_right (g_root s) (map (child_ref (g_root s) (g_splits s)) cs) (g_ens s);
  Ok (mkG e1 (g_tree s) (g_root s) (g_leaves s) (g_splits s) (g_features s)).
Proof.
  intros (w & L & W). pose proof (key_words_starts _ _ _ L) as S. destruct (key_words_match _ _ _ L) as (t & K & E).
  unfold lgbm_step. repeat other S. rewrite K, E, (ints_mapM _ _ W). reflexivity.
Qed.
Lemma step7 ws l s : key_words "leaf_value=" ws l -> Forall (readable rd) ws -> step s l =
  do e1 <- fill set_value (g_root s + g_splits s) (map cell ws) (g_ens s);
  do n <- of_option UnboundLocalError (g_features s);
  Ok (mkG e1 (g_tree s) (g_root s) (Z.of_nat (length ws)) n (g_features s)).
Proof.
  intros L W. pose proof (key_words_starts _ _ _ L) as S. destruct (key_words_match _ _ _ L) as (t & K & E).
  unfold lgbm_step. repeat other S. rewrite K, E, (cells_mapM _ _ W). cbn [bind]. rewrite map_length. reflexivity.
Qed.
Lemma step8 l s : starts "shrinkage=" l -> step s l = do e1 <- set_weight (g_ens s) (g_tree s) none;
  Ok (mkG e1 (g_tree s) (g_root s) (g_leaves s) (g_splits s) (g_features s)).
Proof. intros L. destruct (starts_match _ _ L) as (t & K). unfold lgbm_step. repeat other L. rewrite K. reflexivity. Qed.

(** The next free node after complete blocks. *)
Lemma blocks_end ps : Forall (arr_good rd) ps -> forall k cl s s', Forall2 (fun (c : text -> Prop) l => c l) (lgbm_blocks k (map fst ps)) cl ->
  foldM step cl s = Ok s' ->
  g_root s' + (g_leaves s' + g_splits s') = g_root s + (g_leaves s + g_splits s) + Z.of_nat (list_sum (map (fun p => size (snd p)) ps)).
Proof.
  induction 1 as [|[p t] ps G _ IH]; intros k cl s s' F H; cbn [map lgbm_blocks fst] in F.
  - inversion F; subst. cbn [foldM] in H. injection H as <-. cbn. lia.
  - unfold lgbm_block in F. cbn [app] in F.
    inversion F as [|? l1 ? cl1 L1 F1]; subst; clear F. inversion F1 as [|? l2 ? cl2 L2 F2]; subst; clear F1.
    inversion F2 as [|? l3 ? cl3 L3 F3]; subst; clear F2. inversion F3 as [|? l4 ? cl4 L4 F4]; subst; clear F3.
    inversion F4 as [|? l5 ? cl5 L5 F5]; subst; clear F4. inversion F5 as [|? l6 ? cl6 L6 F6]; subst; clear F5.
    inversion F6 as [|? l7 ? cl7 L7 F7]; subst; clear F6. inversion F7 as [|? l8 ? cl8 L8 F8]; subst; clear F7.
    destruct G as (AT & FT & RT & RL). cbn [fst snd] in *.
    cbn [foldM] in H.
    rewrite (step1 _ _ _ L1) in H. destruct (set_root _ _ _) as [e1|] in H; [|discriminate]. cbn [bind] in H.
    rewrite (step2 _ _ _ L2) in H. cbn [bind] in H.
    rewrite (step3 _ _ _ L3) in H. cbn [g_ens g_root g_leaves g_splits g_features g_tree] in H. destruct (fill _ _ _ _) as [e3|] in H; [|discriminate]. cbn [bind] in H.
    rewrite (step4 _ _ _ L4 RT) in H. cbn [g_ens g_root g_leaves g_splits g_features g_tree] in H. destruct (fill _ _ _ _) as [e4|] in H; [|discriminate]. cbn [bind] in H.
    rewrite (step5 _ _ _ L5) in H. cbn [g_ens g_root g_leaves g_splits g_features g_tree] in H. destruct (fill _ _ _ _) as [e5|] in H; [|discriminate]. cbn [bind] in H.
    rewrite (step6 _ _ _ L6) in H. cbn [g_ens g_root g_leaves g_splits g_features g_tree] in H. destruct (fill _ _ _ _) as [e6|] in H; [|discriminate]. cbn [bind] in H.
    rewrite (step7 _ _ _ L7 RL) in H. cbn [g_ens g_root g_leaves g_splits g_features g_tree] in H. destruct (fill _ _ _ _) as [e7|] in H; [|discriminate]. cbn [bind of_option] in H.
    rewrite (step8 _ _ L8) in H. cbn [g_ens g_root g_leaves g_splits g_features g_tree] in H. destruct (set_weight _ _ _) as [e8|] in H; [|discriminate]. cbn [bind] in H.
    rewrite (IH _ _ _ _ F8 H). cbn [g_ens g_root g_leaves g_splits g_features g_tree map snd]. rewrite lsum_cons.
    destruct AT as (_ & _ & _ & _ & P & _). rewrite (perm_size t _ _ P). lia.
Qed.

(** A tree whose splits and children have been written. *)
Lemma arr_stands root a (e e' : ensemble N) t n : arr_holds a t -> fits16 t -> sized n e' -> 0 <= root ->
  root + Z.of_nat (length (a_feature a)) + Z.of_nat (length (a_leaf a)) <= n ->
  let ns := Z.of_nat (length (a_feature a)) in
  (forall j, zget (e_feature e') j = match zget (a_feature a) (j - root) with Some v => Some (i16 v) | None => zget (e_feature e) j end) ->
  (forall j, zget (e_left e') j = match zget (a_left a) (j - root) with Some c => Some (child_ref root ns c) | None => zget (e_left e) j end) ->
  (forall j, zget (e_right e') j = match zget (a_right a) (j - root) with Some c => Some (child_ref root ns c) | None => zget (e_right e) j end) ->
  length (a_left a) = length (a_feature a) -> length (a_right a) = length (a_feature a) ->
  (forall j, root <= j < root + Z.of_nat (length (a_feature a)) + Z.of_nat (length (a_leaf a)) -> blank_cell e j) ->
  exists T, stands e' T /\ mark T = arr_index root ns (mark t) /\ splits T = splits t /\ height T = height t.
Proof.
  intros H F SZ R0 RN ns D1 D2 D3 L2 L3 BL. assert (EV : forall j, 0 <= j < n -> exists v, zget (e_value e') j = Some v).
  { intros j Hj. destruct SZ as (_ & _ & S3 & _). unfold zget. destruct (Z.ltb_spec j 0); [lia|].
    destruct (nth_error (e_value e') (Z.to_nat j)) as [v|] eqn:E; [eauto|]. apply nth_error_None in E. lia. }
  induction t as [i v|i f x l IHl r IHr]; cbn [arr_holds] in H.
  - destruct H as [H1 H2]. pose proof (zget_some_bound _ _ _ H2) as B. set (j := root + ns + (- i - 1)).
    destruct (BL j) as (B1 & B2 & B3); [unfold j, ns; lia|]. destruct (EV j) as (u & U); [unfold j, ns; lia|].
    exists (Leaf j u). cbn [stands mark splits height]. split; [|split; [|auto]].
    + split; [|exact U]. exists (-1), (-1). rewrite D2, D3, !(zget_none _ (j - root)) by (unfold j, ns in *; lia). auto.
    + unfold arr_index. destruct (Z.ltb_spec i 0); [reflexivity|lia].
  - destruct H as (H1 & H2 & H3 & H4 & H5 & H6 & H7). unfold fits16 in F. cbn [splits] in F.
    inversion F as [|? ? F1 F2]; subst. apply Forall_app in F2. destruct F2 as [F2 F3].
    pose proof (zget_some_bound _ _ _ H2) as B. destruct (IHl H6 F2) as (Tl & A1 & A2 & A3 & A4). destruct (IHr H7 F3) as (Tr & C1 & C2 & C3 & C4).
    assert (AI : arr_index root ns i = root + i) by (unfold arr_index; destruct (Z.ltb_spec i 0); lia).
    destruct (EV (root + i)) as (u & U); [lia|]. exists (Node (root + i) f u Tl Tr). cbn [stands mark splits height]. rewrite A2, A3, A4, C2, C3, C4.
    split; [|auto]. rewrite D1, D2, D3. replace (root + i - root) with i by lia. rewrite H2, H4, H5, !child_index, i16_id by exact F1. auto 8.
Qed.
Lemma has_leaf a t : arr_holds a t -> (0 < length (a_leaf a))%nat.
Proof. induction t as [i v|i f x l IHl r IHr]; cbn [arr_holds]; [intros (_ & H); apply zget_some_bound in H; lia|intros H; apply IHl, H]. Qed.

(** Nodes counted for the first [j] lines of a block. *)
Definition cut_nodes (j : nat) (a : arrays) : nat :=
  (match j with 0 | 1 => 0 | 2 => length (a_leaf a) | _ => length (a_leaf a) + length (a_feature a) end)%nat.

Lemma cut_block p t j kn cl root nl ns a ct fs (e : ensemble N) : arr_good rd (p, t) -> (2 <= j <= 7)%nat ->
  Forall2 (fun (c : text -> Prop) l => c l) (firstn j (lgbm_block (Z.of_nat kn) p)) cl -> a = root + (nl + ns) ->
  sized (Z.of_nat (length (e_left e))) e -> 0 <= a -> a + Z.of_nat (cut_nodes j p) = Z.of_nat (length (e_left e)) -> blank_from a e ->
  (kn < length (e_root e))%nat ->
  exists s' T, foldM step cl (mkG e ct root nl ns fs) = Ok s' /\
    e_ntrees (g_ens s') = e_ntrees e /\ e_root (g_ens s') = upd (e_root e) kn a /\ e_weight (g_ens s') = e_weight e /\
    length (e_left (g_ens s')) = length (e_left e) /\ (forall i, i < a -> same_cell e (g_ens s') i) /\
    stands (g_ens s') T /\ mark T = a /\ incl (splits T) (splits t) /\ (height T <= length (e_left e))%nat.
Proof.
  intros (AT & FT & RT & RL) Hj F Ha SZ H0 Hn BL HR. cbn [fst snd] in *.
  pose proof AT as (LT & LL & LR & AH & P & _). pose proof (has_leaf _ _ AH) as NL. pose proof (perm_size t _ _ P) as PS.
  set (e1 := mkEns (e_ntrees e) (e_nnodes e) (upd (e_root e) kn a) (e_weight e) (e_left e) (e_right e) (e_value e) (e_feature e)).
  assert (Z1 : sized (Z.of_nat (length (e_left e))) e1) by exact SZ. set (n := Z.of_nat (length (e_left e))) in *.
  assert (NB : forall {A} (l : list A) i, i < a -> zget l (i - a) = None) by (intros A l i Hi; apply zget_none; lia).
  assert (AN : a < n) by (unfold cut_nodes in Hn; destruct j as [|[|[|j]]]; lia).
  destruct (BL a ltac:(fold n; lia)) as (BLa & BRa & _).
  assert (EV : forall e' : ensemble N, sized n e' -> exists v, zget (e_value e') a = Some v).
  { intros e' (_ & _ & S3 & _). unfold zget. destruct (Z.ltb_spec a 0); [lia|].
    destruct (nth_error (e_value e') (Z.to_nat a)) as [v|] eqn:E; [eauto|]. apply nth_error_None in E. lia. }
  assert (EL : forall e' : ensemble N, sized n e' -> exists v, zget (e_left e') a = Some v).
  { intros e' (S3 & _). unfold zget. destruct (Z.ltb_spec a 0); [lia|].
    destruct (nth_error (e_left e') (Z.to_nat a)) as [v|] eqn:E; [eauto|]. apply nth_error_None in E. lia. }
  assert (LEAF : forall (e' : ensemble N) s, nodes_only e1 e' -> (forall i, i < a -> same_cell e1 e' i) -> e_right e' = e_right e -> g_ens s = e' ->
    exists T, e_ntrees (g_ens s) = e_ntrees e /\ e_root (g_ens s) = upd (e_root e) kn a /\ e_weight (g_ens s) = e_weight e /\
    length (e_left (g_ens s)) = length (e_left e) /\ (forall i, i < a -> same_cell e (g_ens s) i) /\
    stands (g_ens s) T /\ mark T = a /\ incl (splits T) (splits t) /\ (height T <= length (e_left e))%nat).
  { intros e' s NO SC RI ->. pose proof (sized_nodes n e1 e' NO Z1) as Z'. destruct (EV e' Z') as (v & V). destruct (EL e' Z') as (l & L).
    exists (Leaf a v). destruct NO as (M1 & M2 & M3 & M4 & M5 & _). unfold e1 in M1, M3, M4, M5. cbn [e_ntrees e_nnodes e_root e_weight e_left e_right e_value e_feature] in *.
    do 4 (split; [assumption|]). split; [exact SC|]. split; [|cbn [mark splits height]; split; [reflexivity|split; [intros ? []|lia]]].
    cbn [stands]. split; [|exact V]. exists l, (-1). rewrite RI. auto. }
  unfold lgbm_block in F. do 2 (destruct j as [|j]; [lia|]). cbn [firstn] in F.
  inversion F as [|? l1 ? cl1 L1 F1]; subst cl; clear F. inversion F1 as [|? l2 ? cl2 L2 F2]; subst cl1; clear F1.
  assert (ST2 : forall cl, foldM step (l1 :: l2 :: cl) (mkG e ct root nl ns fs) = foldM step cl (mkG e1 (Z.of_nat kn) a nl ns fs)).
  { intros cl. cbn [foldM]. rewrite (step1 _ _ _ L1). cbn [g_ens g_root g_leaves g_splits g_features g_tree]. rewrite <- Ha, set_root_ok by lia. cbn [bind].
    rewrite (step2 _ _ _ L2). reflexivity. }
  rewrite ST2.
  destruct j as [|j].
  { inversion F2; subst. edestruct (LEAF e1 (mkG e1 (Z.of_nat kn) (root + (nl + ns)) nl ns fs)) as (T & HT); try reflexivity; [apply nodes_refl|intros; apply same_refl|].
    eexists. exists T. split; [reflexivity|]. exact HT. }
  assert (Hn' : a + Z.of_nat (length (a_feature p)) + Z.of_nat (length (a_leaf p)) = n) by (unfold cut_nodes in Hn; lia).
  set (sp := Z.of_nat (length (a_feature p))) in *. set (lf := Z.of_nat (length (a_leaf p))) in *.
  destruct (fill_feature_ok (a_feature p) n e1 a Z1 H0) as (e3 & A3 & B3 & C3 & D3); [fold sp; lia|]. injection C3 as C31 C32 C33.
  pose proof (sized_nodes n e1 e3 B3 Z1) as Z3.
  assert (S3 : forall i, i < a -> same_cell e1 e3 i) by (intros i Hi; unfold same_cell; rewrite D3, NB, C31, C32, C33 by exact Hi; auto).
  cbn [firstn] in F2. inversion F2 as [|c3 x3 r3 cl3 L3 F3 E3a E3b]; subst cl2; clear F2. cbn [foldM]. rewrite (step3 _ _ _ L3).
  cbn [g_ens g_root g_leaves g_splits g_features g_tree]. rewrite A3. cbn [bind]. fold sp.
  destruct j as [|j].
  { inversion F3; subst cl3. edestruct (LEAF e3 (mkG e3 (Z.of_nat kn) a nl sp (Some sp))) as (T & HT); try reflexivity; try assumption.
    eexists. exists T. split; [reflexivity|]. exact HT. }
  destruct (fill_value_ok (map cell (a_threshold p)) n e3 a Z3 H0) as (e4 & A4 & B4 & C4 & D4); [rewrite map_length; lia|]. injection C4 as C41 C42 C43.
  pose proof (sized_nodes n e3 e4 B4 Z3) as Z4.
  assert (S4 : forall i, i < a -> same_cell e1 e4 i).
  { intros i Hi. eapply same_trans; [apply S3, Hi|]. unfold same_cell. rewrite D4, NB, C41, C42, C43 by exact Hi. auto. }
  cbn [firstn] in F3. inversion F3 as [|c4 x4 r4 cl4 L4 F4 E4a E4b]; subst cl3; clear F3. cbn [foldM]. rewrite (step4 _ _ _ L4 RT).
  cbn [g_ens g_root g_leaves g_splits g_features g_tree]. rewrite A4. cbn [bind].
  destruct j as [|j].
  { inversion F4; subst cl4. edestruct (LEAF e4 (mkG e4 (Z.of_nat kn) a nl sp (Some sp))) as (T & HT); try reflexivity; try assumption.
    - eapply nodes_trans; eassumption.
    - rewrite C42. assumption.
    - eexists. exists T. split; [reflexivity|]. exact HT. }
  destruct (fill_left_ok (map (child_ref a sp) (a_left p)) n e4 a Z4 H0) as (e5 & A5 & B5 & C5 & D5); [rewrite map_length; lia|]. injection C5 as C51 C52 C53.
  pose proof (sized_nodes n e4 e5 B5 Z4) as Z5.
  assert (S5 : forall i, i < a -> same_cell e1 e5 i).
  { intros i Hi. eapply same_trans; [apply S4, Hi|]. unfold same_cell. rewrite D5, NB, C51, C52, C53 by exact Hi. auto. }
  assert (N5 : nodes_only e1 e5) by (eapply nodes_trans; [exact B3|]; eapply nodes_trans; [exact B4|exact B5]).
  cbn [firstn] in F4. inversion F4 as [|c5 x5 r5 cl5 L5 F5 E5a E5b]; subst cl4; clear F4. cbn [foldM]. rewrite (step5 _ _ _ L5).
  cbn [g_ens g_root g_leaves g_splits g_features g_tree]. rewrite A5. cbn [bind].
  destruct j as [|j].
  { inversion F5; subst cl5. edestruct (LEAF e5 (mkG e5 (Z.of_nat kn) a nl sp (Some sp))) as (T & HT); try reflexivity; try assumption.
    - rewrite C51, C42. assumption.
    - eexists. exists T. split; [reflexivity|]. exact HT. }
  destruct (fill_right_ok (map (child_ref a sp) (a_right p)) n e5 a Z5 H0) as (e6 & A6 & B6 & C6 & D6); [rewrite map_length; lia|]. injection C6 as C61 C62 C63.
  pose proof (sized_nodes n e5 e6 B6 Z5) as Z6.
  assert (S6 : forall i, i < a -> same_cell e1 e6 i).
  { intros i Hi. eapply same_trans; [apply S5, Hi|]. unfold same_cell. rewrite D6, NB, C61, C62, C63 by exact Hi. auto. }
  assert (N6 : nodes_only e1 e6) by (eapply nodes_trans; [exact N5|exact B6]).
  cbn [firstn] in F5. inversion F5 as [|c6 x6 r6 cl6 L6 F6 E6a E6b]; subst cl5; clear F5. cbn [foldM]. rewrite (step6 _ _ _ L6).
  cbn [g_ens g_root g_leaves g_splits g_features g_tree]. rewrite A6. cbn [bind].
  assert (TREE : forall (e' : ensemble N) s, nodes_only e1 e' -> (forall i, i < a -> same_cell e1 e' i) ->
    e_left e' = e_left e6 -> e_right e' = e_right e6 -> e_feature e' = e_feature e6 -> g_ens s = e' ->
    exists T, e_ntrees (g_ens s) = e_ntrees e /\ e_root (g_ens s) = upd (e_root e) kn a /\ e_weight (g_ens s) = e_weight e /\
    length (e_left (g_ens s)) = length (e_left e) /\ (forall i, i < a -> same_cell e (g_ens s) i) /\
    stands (g_ens s) T /\ mark T = a /\ incl (splits T) (splits t) /\ (height T <= length (e_left e))%nat).
  { intros e' s NO SC E1 E2 E3 ->. pose proof (sized_nodes n e1 e' NO Z1) as Z'.
    destruct (arr_stands a p e1 e' t n AH FT Z' H0) as (T & T1 & T2 & T3 & T4); try assumption; fold sp lf.
    - lia.
    - intros i. rewrite E3, C62, C52, C43, D3. reflexivity.
    - intros i. rewrite E1, C61, D5, zget_map, C41, C31. destruct (zget (a_left p) (i - a)); reflexivity.
    - intros i. rewrite E2, D6, zget_map, C51, C42, C32. destruct (zget (a_right p) (i - a)); reflexivity.
    - intros i Hi. apply BL. fold n. lia.
    - exists T. destruct NO as (M1 & M2 & M3 & M4 & M5 & _). unfold e1 in M1, M3, M4, M5. cbn [e_ntrees e_nnodes e_root e_weight e_left e_right e_value e_feature] in *.
      do 4 (split; [assumption|]). split; [exact SC|]. split; [exact T1|]. split; [rewrite T2; apply (arr_mark p t AT)|].
      rewrite T3, T4. split; [apply incl_refl|]. pose proof (height_size t). lia. }
  destruct j as [|j].
  { inversion F6; subst cl6. edestruct (TREE e6 (mkG e6 (Z.of_nat kn) a nl sp (Some sp))) as (T & HT); try reflexivity; try assumption.
    eexists. exists T. split; [reflexivity|]. exact HT. }
  destruct (fill_value_ok (map cell (a_leaf p)) n e6 (a + sp) Z6) as (e7 & A7 & B7 & C7 & D7); [lia|rewrite map_length; fold lf; lia|]. injection C7 as C71 C72 C73.
  cbn [firstn] in F6. inversion F6 as [|c7 x7 r7 cl7 L7 F7 E7a E7b]; subst cl6; clear F6. cbn [foldM]. rewrite (step7 _ _ _ L7 RL).
  cbn [g_ens g_root g_leaves g_splits g_features g_tree]. rewrite A7. cbn [bind of_option]. fold lf.
  destruct j as [|j]; [|lia]. inversion F7; subst cl7.
  edestruct (TREE e7 (mkG e7 (Z.of_nat kn) a lf sp (Some sp))) as (T & HT); try reflexivity; try assumption.
  - eapply nodes_trans; [exact N6|exact B7].
  - intros i Hi. eapply same_trans; [apply S6, Hi|]. unfold same_cell. rewrite D7, (zget_none _ (i - (a + sp))), C71, C72, C73 by lia. auto.
  - eexists. exists T. split; [reflexivity|]. exact HT.
Qed.

Lemma foldM_two {A B} (f : B -> A -> res B) l1 : forall l2 s, foldM f (l1 ++ l2) s = do s' <- foldM f l1 s; foldM f l2 s'.
Proof. induction l1 as [|x l1 IH]; intros l2 s; cbn [app foldM bind]; [reflexivity|]. destruct (f s x); cbn [bind]; auto. Qed.
Lemma count_part p j kn cl c : (1 <= j <= 7)%nat -> Forall2 (fun (c : text -> Prop) l => c l) (firstn j (lgbm_block kn p)) cl ->
  fold_left cnt cl c = (fst c + 1, snd c + Z.of_nat (cut_nodes j p)).
Proof.
  intros Hj F.
  assert (Q1 : forall l, key_nat "Tree=" kn l -> forall c, cnt c l = (fst c + 1, snd c)).
  { intros l L1 d. pose proof (key_nat_starts _ _ _ L1) as S1. pose proof (key_nat_number _ _ _ L1) as N1. unfold cnt.
    other S1. rewrite (proj2 (starts_other _ "num_leaves=" l S1 (fun _ => eq_refl))), N1. reflexivity. }
  assert (Q2 : forall l, key_nat "num_leaves=" (Z.of_nat (length (a_leaf p))) l -> forall c, cnt c l = (fst c, snd c + Z.of_nat (length (a_leaf p)))).
  { intros l L2 d. pose proof (key_nat_number _ _ _ L2) as N2. unfold cnt. rewrite N2. reflexivity. }
  assert (Q3 : forall l, key_ints "split_feature=" (a_feature p) l -> forall c, cnt c l = (fst c, snd c + Z.of_nat (length (a_feature p)))).
  { intros l L3 d. destruct L3 as (w3 & L3 & W3). pose proof (key_words_starts _ _ _ L3) as S3. destruct (key_words_match _ _ _ L3) as (t3 & M3 & E3).
    unfold cnt. rewrite (proj2 (starts_other _ "num_leaves=" l S3 (fun _ => eq_refl))), M3, E3, (forall2_int_len _ _ W3). reflexivity. }
  assert (Q : forall l, starts "threshold=" l \/ starts "left_child=" l \/ starts "right_child=" l \/ starts "leaf_value=" l -> forall c, cnt c l = c).
  { intros l Hl d. destruct Hl as [S|[S|[S|S]]]; unfold cnt; repeat other S; reflexivity. }
  assert (W : forall k ws l, key_words k ws l -> starts k l) by (intros; eapply key_words_starts; eauto).
  assert (I : forall k ws l, key_ints k ws l -> starts k l) by (intros k ws l (w & L & _); eapply key_words_starts; eauto).
  unfold lgbm_block in F. destruct j as [|[|[|[|[|[|[|[|j]]]]]]]]; try lia; cbn [firstn] in F;
  repeat match goal with H : Forall2 _ (_ :: _) _ |- _ => inversion H; clear H; subst | H : Forall2 _ [] _ |- _ => inversion H; clear H; subst end;
  cbn [fold_left];
  repeat match goal with
  | H : key_nat "Tree=" _ ?l |- context [cnt _ ?l] => rewrite (Q1 l H)
  | H : key_nat "num_leaves=" _ ?l |- context [cnt _ ?l] => rewrite (Q2 l H)
  | H : key_ints "split_feature=" _ ?l |- context [cnt _ ?l] => rewrite (Q3 l H)
  | H : key_words "threshold=" _ ?l |- context [cnt _ ?l] => rewrite (Q l) by eauto
  | H : key_words "leaf_value=" _ ?l |- context [cnt _ ?l] => rewrite (Q l) by eauto
  | H : key_ints "left_child=" _ ?l |- context [cnt _ ?l] => rewrite (Q l) by eauto
  | H : key_ints "right_child=" _ ?l |- context [cnt _ ?l] => rewrite (Q l) by eauto
  end; unfold cut_nodes; cbn [fst snd]; f_equal; lia.
Qed.

(** ** Files that end after [j] lines of a block *)
Lemma cut_loaded ps p j ls f : cut_file ps p j ls -> file_text f ls -> Forall (arr_good rd) ps -> (1 <= j <= 7)%nat ->
  let sum := Z.of_nat (list_sum (map (fun p => size (snd p)) ps)) in
  exists e0 s cl ts, ts = map conv (placed 0 ps) /\
    lgbm_load rd f = (do s' <- foldM step cl s; Ok (g_ens s')) /\
    Forall2 (fun (c : text -> Prop) l => c l) (firstn j (lgbm_block (Z.of_nat (length ps)) p)) cl /\
    g_ens s = e0 /\ g_root s + (g_leaves s + g_splits s) = sum /\
    e_ntrees e0 = Z.of_nat (length ps) + 1 /\ e_root e0 = map mark ts ++ [-1] /\ e_weight e0 = map (fun _ => none) ps ++ [nzero] /\
    sized (sum + Z.of_nat (cut_nodes j p)) e0 /\ Forall (represents e0) ts /\
    Forall (fun t => forall j, In j (marks t) -> j < sum) ts /\ blank_from sum e0.
Proof.
  intros D F G Hj sum. destruct (among_lines D) as (cl & C1 & C2 & C3). apply Forall2_app_inv_l in C1 as (cl1 & cl2 & C1 & C4 & ->).
  unfold lgbm_load. rewrite (file_lines_text f ls F).
  replace (lgbm_count ls) with (Z.of_nat (S (length ps)), Z.of_nat (list_sum (map (fun p => size (snd p)) ps) + cut_nodes j p)).
  2:{ unfold lgbm_count. change (fun c l => _) with cnt. rewrite (C3 _ cnt _ (other_count rd)), fold_left_app.
      rewrite (count_blocks rd ps G 0 cl1 (0, 0) C1), (count_part p j _ cl2 _ Hj C4). cbn [fst snd]. f_equal; lia. }
  destruct (initialize_ok (N:=N) (S (length ps)) (list_sum (map (fun p => size (snd p)) ps) + cut_nodes j p)) as (e0 & I1 & I2 & I3 & I4 & I5 & I6 & I7 & I8).
  rewrite I1. cbn [bind].
  destruct (lgbm_trees rd ps G 0 cl1 0 0 0 0 0 None e0 C1) as (s & T1 & T2); try lia.
  { rewrite I6. exact I7. } { exact I8. } { rewrite I4, repeat_length. lia. } { rewrite I5, repeat_length. lia. }
  pose proof (blocks_end ps G _ _ _ _ C1 T1) as BE. cbn [g_root g_leaves g_splits] in BE.
  set (ts := map conv (placed 0 ps)) in *. pose proof (placed_length rd ps 0) as PL. pose proof (placed_sizes rd ps 0) as PZ. fold ts in PL, PZ.
  assert (RP : forall {A} (x : A), repeat x (S (length ps)) = [] ++ repeat x (length ts) ++ [x]).
  { intros A x. rewrite PL. cbn [app]. change (S (length ps)) with (1 + length ps)%nat. rewrite Nat.add_comm, repeat_app. reflexivity. }
  destruct (chain_tail ts 0 0 e0 _ _ [] [] [-1] [nzero] T2) as (K1 & K2 & K3 & K4 & K5 & K6 & K7 & K8 & K9 & K10); auto.
  { rewrite I4. apply RP. } { rewrite I5. apply RP. }
  rewrite PZ in K9, K10. fold sum in K9, K10. rewrite Z.add_0_l in K10.
  exists (g_ens s), s, cl2, ts. split; [reflexivity|]. split; [|split; [exact C4|split; [reflexivity|]]].
  { rewrite (C2 _ step _ (other_step rd)), foldM_two, T1. reflexivity. }
  split; [rewrite BE; unfold sum; lia|]. split; [rewrite K1, I2; lia|]. split; [exact K2|]. split; [exact K3|].
  split; [apply K5; unfold sum; rewrite <- Nat2Z.inj_add; exact I7|]. split; [exact K8|]. split; [|exact K10].
  eapply Forall_impl; [|exact K9]. cbn beta. intros t H i Hi. specialize (H i Hi). lia.
Qed.

Lemma score_last (ws : list N) (ts : list (tree Z N)) w T row : length ws = length ts ->
  ensemble_score (ws ++ [w]) (ts ++ [T]) row = nf32 (nadd (ensemble_score ws ts row) (nf32 (nmul (snd (exit_leaf row T)) w))).
Proof.
  intros L. unfold ensemble_score, tree_scores. revert ts L. generalize (@nzero N) as y. induction ws as [|v ws IH]; intros y [|t ts] L; try discriminate.
  - reflexivity.
  - cbn [app combine map fold_left]. apply IH. cbn in L. congruence.
Qed.

Lemma partial_last (ws : list N) (ts : list (tree Z N)) w T row : length ws = length ts ->
  tree_scores (ws ++ [w]) (ts ++ [T]) row = tree_scores ws ts row ++ [nf32 (nmul (snd (exit_leaf row T)) w)].
Proof.
  unfold tree_scores. revert ts. induction ws as [|v ws IH]; intros [|t ts] L; try discriminate; [reflexivity|].
  cbn [app combine map]. f_equal. apply IH. cbn in L. congruence.
Qed.

(** After two to seven lines. *)
Theorem lgbm_cut ps p t j ls f X : cut_file ps p j ls -> file_text f ls -> Forall (arr_good rd) ps -> arr_good rd (p, t) -> (2 <= j <= 7)%nat ->
  let ts := map conv (placed 0 ps) in
  let ws := map (fun _ => none) ps in
  (forall row, In row X -> covers row (conv t :: ts)) ->
  exists e (v : list N -> N), lgbm_load rd f = Ok e /\
    basic_scoring e X = Ok (map (fun row => nf32 (nadd (ensemble_score ws ts row) (nf32 (nmul (v row) nzero)))) X) /\
    exists leaves, detailed_scoring e X = Ok (leaves, map (fun row => tree_scores ws ts row ++ [nf32 (nmul (v row) nzero)]) X).
Proof.
  intros D F G GT Hj ts ws CV. destruct (cut_loaded ps p j ls f D F G ltac:(lia)) as (e0 & s & cl & ts' & -> & H1 & H2 & H3 & H4 & H5 & H6 & H7 & H8 & H9 & H10 & H11).
  fold ts in H6, H9, H10. fold ws in H7. set (sum := Z.of_nat (list_sum _)) in *. destruct s as [e ct root nl ns fs]. cbn [g_ens g_root g_leaves g_splits] in *. subst e.
  assert (LN : Z.of_nat (length (e_left e0)) = sum + Z.of_nat (cut_nodes j p)) by (destruct H8; assumption).
  pose proof (placed_length rd ps 0) as PL. fold ts in PL.
  destruct (cut_block p t j (length ps) cl root nl ns sum ct fs e0 GT Hj H2) as (s' & T & E1 & E2 & E3 & E4 & E5 & E6 & E7 & E8 & E9 & E10); auto.
  { rewrite LN. exact H8. } { unfold sum. lia. } { rewrite H6, app_length, map_length, PL. cbn [length]. lia. }
  rewrite E1 in H1. cbn [bind] in H1. exists (g_ens s'), (fun row => snd (exit_leaf row T)). split; [exact H1|].
  assert (LW : length ws = length ts) by (unfold ws; rewrite map_length; auto).
  assert (SA : stands_all (g_ens s') (ts ++ [T]) (ws ++ [nzero])).
  { unfold stands_all. rewrite !app_length. cbn [length]. split; [rewrite E2, H5, PL; lia|]. split.
    { rewrite E3, H6, <- PL, <- (map_length mark ts), upd_middle, map_app. cbn [map]. rewrite E8. reflexivity. }
    split; [rewrite E4; exact H7|]. split; [lia|]. split; apply Forall_app; split.
    - rewrite Forall_forall in H9, H10 |- *. intros u U. apply (stands_same e0); [apply represents_stands, H9, U|].
      intros i Hi. apply E6. apply (H10 u U i Hi).
    - constructor; [exact E7|constructor].
    - rewrite E5. apply Forall_forall. intros u U. pose proof (height_size u). 
      assert (HS : (size u <= list_sum (map size ts))%nat).
      { clear - U. induction ts as [|a l IH]; [destruct U|]. cbn [map]. change (list_sum (size a :: map size l)) with (size a + list_sum (map size l))%nat.
        destruct U as [->|U]; [lia|]. specialize (IH U). lia. }
      unfold ts in HS. rewrite (placed_sizes rd ps 0) in HS. unfold sum in LN. lia.
    - constructor; [rewrite E5; exact E10|constructor]. }
  assert (CT : forall row, In row X -> covers row (ts ++ [T])).
  { intros row HR. specialize (CV row HR). unfold covers in *. inversion CV as [|? ? CV1 CV2]; subst. apply Forall_app. split; [exact CV2|].
    constructor; [|constructor]. rewrite splits_convert in CV1. rewrite Forall_forall in CV1 |- *. intros x Hx. apply CV1, E9, Hx. }
  split.
  - rewrite (stands_score _ _ _ X SA CT). f_equal. apply map_ext. intros row. apply score_last, LW.
  - destruct (stands_detailed _ _ _ X SA CT) as (leaves & DS). exists leaves. rewrite DS. do 2 f_equal. apply map_ext. intros row. apply partial_last, LW.
Qed.

(** After the first line. *)
Theorem lgbm_cut_first ps p ls f X : cut_file ps p 1 ls -> file_text f ls -> Forall (arr_good rd) ps -> X <> [] ->
  exists e, lgbm_load rd f = Ok e /\ basic_scoring e X = Err MemFault.
Proof.
  intros D F G NE. destruct (cut_loaded ps p 1 ls f D F G ltac:(lia)) as (e0 & s & cl & ts & -> & H1 & H2 & H3 & H4 & H5 & H6 & H7 & H8 & H9 & H10 & H11).
  set (ts := map conv (placed 0 ps)) in *. set (sum := Z.of_nat (list_sum _)) in *. destruct s as [e ct root nl ns fs]. cbn [g_ens g_root g_leaves g_splits] in *. subst e.
  pose proof (placed_length rd ps 0) as PL. fold ts in PL.
  unfold lgbm_block in H2. cbn [firstn] in H2. inversion H2 as [|c l1 r cl1 L1 F1 E1a E1b]; subst cl. inversion F1; subst cl1.
  cbn [foldM] in H1. rewrite (step1 _ _ _ L1) in H1. cbn [g_ens g_root g_leaves g_splits g_features g_tree] in H1.
  rewrite set_root_ok in H1 by (rewrite H6, app_length, map_length, PL; cbn [length]; lia). cbn [bind g_ens] in H1. rewrite H4 in H1.
  eexists. split; [exact H1|]. destruct X as [|row X]; [congruence|]. unfold basic_scoring. cbn [mapM].
  set (e1 := mkEns _ _ _ _ _ _ _ _). replace (score_instance e1 row) with (@Err N MemFault); [reflexivity|]. symmetry.
  assert (LN : Z.of_nat (length (e_left e0)) = sum) by (destruct H8 as (K & _); cbn [cut_nodes] in K; lia).
  assert (RT : e_root e1 = map mark ts ++ [sum]).
  { unfold e1. cbn [e_root]. rewrite H6, <- PL, <- (map_length mark ts), upd_middle. reflexivity. }
  unfold score_instance. replace (e_ntrees e1) with (Z.of_nat (S (length ts))) by (unfold e1; cbn [e_ntrees]; rewrite H5, PL; lia).
  rewrite zrange_seq. apply (fault_last e1 row ts 0 nzero).
  - intros i u U. cbn [Nat.add]. rewrite RT. split; [|split; [|split]].
    + rewrite zget_nth, nth_error_app1 by (rewrite map_length; apply nth_error_Some; congruence). apply map_nth_error, U.
    + unfold e1. cbn [e_weight]. rewrite H7, zget_nth. destruct (nth_error (map (fun _ => none) ps ++ [nzero]) i) as [w|] eqn:W; [eauto|].
      apply nth_error_None in W. rewrite app_length, map_length in W. assert (i < length ts)%nat by (apply nth_error_Some; congruence). lia.
    + rewrite Forall_forall in H9. apply (stands_same e0); [apply represents_stands, H9; eapply nth_error_In; eauto|]. intros; unfold same_cell, e1; auto.
    + pose proof (height_size u). apply nth_error_In in U. unfold e1. cbn [e_left].
      assert (HS : (size u <= list_sum (map size ts))%nat).
      { clear - U. induction ts as [|a l IH]; [destruct U|]. cbn [map]. change (list_sum (size a :: map size l)) with (size a + list_sum (map size l))%nat.
        destruct U as [->|U]; [lia|]. specialize (IH U). lia. }
      unfold ts in HS. rewrite (placed_sizes rd ps 0) in HS. unfold sum in LN. lia.
  - cbn [Nat.add]. rewrite RT, zget_nth, nth_error_app2 by (rewrite map_length; lia). rewrite map_length, Nat.sub_diag. cbn [nth_error].
    unfold e1. cbn [e_left]. rewrite LN. reflexivity.
Qed.

(** ** Every beginning of a file is one of these *)
Lemma among_first {T} (P : T -> Prop) cs ls : among P cs ls -> forall n, exists m, among P (firstn m cs) (firstn n ls).
Proof.
  induction 1 as [|l cs ls Hl _ IH|c l cs ls Hl _ IH]; intros n.
  - exists 0%nat. destruct n; constructor.
  - destruct n as [|n]; [exists 0%nat; constructor|]. destruct (IH n) as (m & IH'). exists m. cbn [firstn]. constructor; auto.
  - destruct n as [|n]; [exists 0%nat; constructor|]. destruct (IH n) as (m & IH'). exists (S m). cbn [firstn]. apply among_core; auto.
Qed.
Lemma blocks_first l : forall k m, (exists r q, l = r ++ q /\ firstn m (lgbm_blocks k l) = lgbm_blocks k r) \/
  exists r a q j, l = r ++ a :: q /\ (1 <= j <= 7)%nat /\ firstn m (lgbm_blocks k l) = lgbm_blocks k r ++ firstn j (lgbm_block (k + Z.of_nat (length r)) a).
Proof.
  induction l as [|a l IH]; intros k m.
  - left. exists [], []. rewrite firstn_nil. auto.
  - cbn [lgbm_blocks]. destruct (Nat.eq_dec m 0) as [->|M0]; [left; exists [], (a :: l); auto|].
    destruct (Nat.le_gt_cases 8 m) as [M|M].
    + rewrite firstn_app, firstn_all2 by (cbn [length lgbm_block]; exact M). destruct (IH (k + 1) (m - length (lgbm_block k a))%nat) as [(r & q & -> & E)|(r & b & q & j & -> & J & E)]; rewrite E.
      * left. exists (a :: r), q. auto.
      * right. exists (a :: r), b, q, j. cbn [lgbm_blocks length app]. split; [reflexivity|]. split; [exact J|]. rewrite <- app_assoc. do 4 f_equal. lia.
    + right. exists [], a, l, m. split; [reflexivity|]. split; [lia|]. cbn [lgbm_blocks length app Z.of_nat]. rewrite Z.add_0_r, firstn_app.
      replace (m - length (lgbm_block k a))%nat with 0%nat by (cbn [length lgbm_block]; lia). rewrite firstn_O, app_nil_r. reflexivity.
Qed.
Theorem lgbm_first ps ls f n : lgbm_file rd (map fst ps) ls -> file_text f ls ->
  file_text (concat (firstn n ls)) (firstn n ls) /\
  ((exists r q, ps = r ++ q /\ lgbm_file rd (map fst r) (firstn n ls)) \/
   exists r p t q j, ps = r ++ (p, t) :: q /\ (1 <= j <= 7)%nat /\ cut_file r p j (firstn n ls)).
Proof.
  intros D F. split; [apply (file_first f), F|]. destruct (among_first _ _ _ D n) as (m & A).
  destruct (blocks_first (map fst ps) 0 m) as [(r & q & E1 & E2)|(r & a & q & j & E1 & J & E2)]; rewrite E2 in A.
  - left. apply map_eq_app in E1 as (r' & q' & -> & <- & <-). exists r', q'. auto.
  - right. apply map_eq_app in E1 as (r' & q' & -> & <- & E3). destruct q' as [|[p t] q']; [discriminate|]. cbn [map fst] in E3. injection E3 as E4 E5. subst a q.
    exists r', p, t, q', j. split; [reflexivity|]. split; [exact J|]. unfold cut_file. rewrite map_length, Z.add_0_l in A. exact A.
Qed.
End Cut.
