(** Proofs: array-encoded trees (LightGBM and Jforests). *)
From Coq Require Import Ascii String List ZArith Lia Bool Permutation.
From Verif Require Import Base Lists Num M_Text M_Svmlight S_Svmlight L_Text L_Svmlight3 M_Dataset M_Ensemble S_Ensemble L_Ensemble L_Ensemble2 M_Loaders M_TextLoaders S_Loaders L_Loaders L_QuickRank L_Dump L_Dump2.
Import ListNotations.
Local Open Scope Z_scope.

(** ** Filling consecutive cells *)
Section Fill.
Context {N : num} {A B X : Type}.
Variable set : ensemble N -> Z -> A -> res (ensemble N).
Variable get : ensemble N -> list B.
Variable cv : A -> B.
Variable other : ensemble N -> X.
Hypothesis set_ok : forall n e i v, sized n e -> 0 <= i < n -> exists e', set e i v = Ok e' /\ nodes_only e e' /\
  (forall j, zget (get e') j = if i =? j then Some (cv v) else zget (get e) j) /\ other e' = other e.
Lemma fill_ok l : forall n e base, sized n e -> 0 <= base -> base + Z.of_nat (length l) <= n ->
  exists e', fill set base l e = Ok e' /\ nodes_only e e' /\ other e' = other e /\
    (forall j, zget (get e') j = match zget l (j - base) with Some v => Some (cv v) | None => zget (get e) j end).
Proof.
  unfold fill. induction l as [|v l IH]; intros n e base S H0 H1; cbn [foldM bind length fst snd] in *.
  - exists e. split; [reflexivity|]. split; [apply nodes_refl|]. split; [reflexivity|]. intros j. unfold zget at 2. destruct (j - base <? 0); [|destruct (Z.to_nat (j - base))]; reflexivity.
  - destruct (set_ok n e base v S) as (e1 & A1 & A2 & A3 & A4); [lia|]. rewrite A1. cbn [bind].
    destruct (IH n e1 (base + 1)) as (e2 & B1 & B2 & B3 & B4); [eapply sized_nodes; eauto|lia|lia|].
    exists e2. split; [exact B1|]. split; [eapply nodes_trans; eauto|]. split; [congruence|].
    intros j. rewrite B4, A3. unfold zget at 1 3.
    destruct (Z.ltb_spec (j - (base + 1)) 0); destruct (Z.ltb_spec (j - base) 0); try lia.
    + destruct (Z.eqb_spec base j); [lia|]. reflexivity.
    + assert (j = base) by lia. subst j. rewrite Z.eqb_refl, Z.sub_diag. reflexivity.
    + replace (Z.to_nat (j - base)) with (Datatypes.S (Z.to_nat (j - (base + 1)))) by lia. cbn [nth_error].
      destruct (nth_error l _); [reflexivity|]. destruct (Z.eqb_spec base j); [lia|]. reflexivity.
Qed.
End Fill.
Section Fills.
Context {N : num}.
Lemma fill_left_ok l n (e : ensemble N) base : sized n e -> 0 <= base -> base + Z.of_nat (length l) <= n ->
  exists e', fill set_left base l e = Ok e' /\ nodes_only e e' /\
    (e_right e', e_feature e', e_value e') = (e_right e, e_feature e, e_value e) /\
    (forall j, zget (e_left e') j = match zget l (j - base) with Some v => Some v | None => zget (e_left e) j end).
Proof.
  apply (fill_ok set_left e_left (fun v => v) (fun e : ensemble N => (e_right e, e_feature e, e_value e))).
  intros m e1 i v S H. destruct (set_left_ok m e1 i v S H) as (e2 & A1 & A2 & A3 & A4 & A5 & A6).
  exists e2. split; [assumption|]. split; [assumption|]. split; [assumption|]. rewrite A4, A5, A6. reflexivity.
Qed.
Lemma fill_right_ok l n (e : ensemble N) base : sized n e -> 0 <= base -> base + Z.of_nat (length l) <= n ->
  exists e', fill set_right base l e = Ok e' /\ nodes_only e e' /\
    (e_left e', e_feature e', e_value e') = (e_left e, e_feature e, e_value e) /\
    (forall j, zget (e_right e') j = match zget l (j - base) with Some v => Some v | None => zget (e_right e) j end).
Proof.
  apply (fill_ok set_right e_right (fun v => v) (fun e : ensemble N => (e_left e, e_feature e, e_value e))).
  intros m e1 i v S H. destruct (set_right_ok m e1 i v S H) as (e2 & A1 & A2 & A3 & A4 & A5 & A6).
  exists e2. split; [assumption|]. split; [assumption|]. split; [assumption|]. rewrite A4, A5, A6. reflexivity.
Qed.
Lemma fill_value_ok l n (e : ensemble N) base : sized n e -> 0 <= base -> base + Z.of_nat (length l) <= n ->
  exists e', fill set_value base l e = Ok e' /\ nodes_only e e' /\
    (e_left e', e_right e', e_feature e') = (e_left e, e_right e, e_feature e) /\
    (forall j, zget (e_value e') j = match zget l (j - base) with Some v => Some v | None => zget (e_value e) j end).
Proof.
  apply (fill_ok set_value e_value (fun v => v) (fun e : ensemble N => (e_left e, e_right e, e_feature e))).
  intros m e1 i v S H. destruct (set_value_ok m e1 i v S H) as (e2 & A1 & A2 & A3 & A4 & A5 & A6).
  exists e2. split; [assumption|]. split; [assumption|]. split; [assumption|]. rewrite A4, A5, A6. reflexivity.
Qed.
Lemma fill_feature_ok l n (e : ensemble N) base : sized n e -> 0 <= base -> base + Z.of_nat (length l) <= n ->
  exists e', fill set_feature base l e = Ok e' /\ nodes_only e e' /\
    (e_left e', e_right e', e_value e') = (e_left e, e_right e, e_value e) /\
    (forall j, zget (e_feature e') j = match zget l (j - base) with Some v => Some (i16 v) | None => zget (e_feature e) j end).
Proof.
  apply (fill_ok set_feature e_feature i16 (fun e : ensemble N => (e_left e, e_right e, e_value e))).
  intros m e1 i v S H. destruct (set_feature_ok m e1 i v S H) as (e2 & A1 & A2 & A3 & A4 & A5 & A6).
  exists e2. split; [assumption|]. split; [assumption|]. split; [assumption|]. rewrite A4, A5, A6. reflexivity.
Qed.
End Fills.

(** ** The cells written for one tree *)
Section Block.
Context {N : num}.
Variable rd : text -> option N.
Notation cell := (cell_of rd).
Notation conv := (convert cell cell).

Definition arrays_done (root : Z) (a : arrays) (e e' : ensemble N) : Prop :=
  let ns := Z.of_nat (length (a_feature a)) in
  (forall j, zget (e_feature e') j = match zget (a_feature a) (j - root) with Some v => Some (i16 v) | None => zget (e_feature e) j end) /\
  (forall j, zget (e_left e') j = match zget (a_left a) (j - root) with Some c => Some (child_ref root ns c) | None => zget (e_left e) j end) /\
  (forall j, zget (e_right e') j = match zget (a_right a) (j - root) with Some c => Some (child_ref root ns c) | None => zget (e_right e) j end) /\
  (forall j, zget (e_value e') j = match zget (a_leaf a) (j - (root + ns)) with
                                   | Some v => Some (cell v)
                                   | None => match zget (a_threshold a) (j - root) with Some v => Some (cell v) | None => zget (e_value e) j end
                                   end).
Lemma child_index root ns c : child_ref root ns c = arr_index root ns c.
Proof. unfold child_ref, arr_index. destruct (Z.leb_spec 0 c); destruct (Z.ltb_spec c 0); lia. Qed.
Lemma zget_some_bound {A} (l : list A) i v : zget l i = Some v -> 0 <= i < Z.of_nat (length l).
Proof.
  unfold zget. destruct (Z.ltb_spec i 0); [discriminate|]. intros H1.
  assert (Z.to_nat i < length l)%nat by (apply nth_error_Some; congruence). lia.
Qed.
Lemma zget_none {A} (l : list A) i : ~ (0 <= i < Z.of_nat (length l)) -> zget l i = None.
Proof. intros H. destruct (zget l i) eqn:E; auto. apply zget_some_bound in E. contradiction. Qed.

Lemma arrays_represents root a (e e' : ensemble N) t : arr_holds a t -> fits16 t -> arrays_done root a e e' ->
  length (a_threshold a) = length (a_feature a) -> length (a_left a) = length (a_feature a) -> length (a_right a) = length (a_feature a) ->
  (forall j, root <= j < root + Z.of_nat (length (a_feature a)) + Z.of_nat (length (a_leaf a)) -> blank_cell e j) ->
  represents e' (relabel (arr_index root (Z.of_nat (length (a_feature a)))) (conv t)).
Proof.
  intros H F (D1 & D2 & D3 & D4) L1 L2 L3 BL. set (ns := Z.of_nat (length (a_feature a))) in *.
  induction t as [i v|i f x l IHl r IHr]; cbn [arr_holds convert relabel represents] in *.
  - destruct H as [H1 H2]. unfold arr_index. destruct (Z.ltb_spec i 0); [|lia].
    pose proof (zget_some_bound _ _ _ H2) as B. set (j := root + ns + (- i - 1)).
    destruct (BL j) as (B1 & B2 & B3); [unfold j; lia|].
    rewrite D1, D2, D3, D4. rewrite !(zget_none _ (j - root)) by (unfold j; lia).
    replace (j - (root + ns)) with (- i - 1) by (unfold j; lia). rewrite H2. auto.
  - destruct H as (H1 & H2 & H3 & H4 & H5 & H6 & H7). unfold fits16 in F. cbn [splits] in F.
    inversion F as [|? ? F1 F2]; subst. apply Forall_app in F2. destruct F2 as [F2 F3].
    pose proof (zget_some_bound _ _ _ H2) as B.
    assert (AI : arr_index root ns i = root + i) by (unfold arr_index; destruct (Z.ltb_spec i 0); lia). rewrite AI.
    rewrite D1, D2, D3, D4. replace (root + i - root) with i by lia. rewrite H2, H3, H4, H5, !child_index.
    rewrite (zget_none _ (root + i - (root + ns))) by (fold ns in B; lia).
    rewrite !mark_relabel, !mark_convert, i16_id by exact F1.
    repeat (split; [reflexivity|]). split; [apply IHl; auto|apply IHr; auto].
Qed.

Lemma marks_length {A V} (t : tree A V) : length (marks t) = size t.
Proof. induction t; cbn [marks size length]; auto. rewrite app_length. lia. Qed.
Lemma perm_size {V} (t : tree Z V) nl ns : Permutation (marks t) (zrange (- Z.of_nat nl) (Z.of_nat ns)) -> size t = (nl + ns)%nat.
Proof.
  intros P. apply Permutation_length in P. rewrite zrange_length in P.
  rewrite (marks_length t) in P. lia.
Qed.
Lemma index_perm root ns nl : 0 <= ns -> 0 <= nl ->
  Permutation (map (arr_index root ns) (zrange (- nl) ns)) (zrange root (root + (nl + ns))).
Proof.
  intros H1 H2. apply NoDup_Permutation_bis.
  - assert (K : forall l, NoDup l -> (forall x, In x l -> - nl <= x < ns) -> NoDup (map (arr_index root ns) l)).
    { induction 1 as [|x l Hx Hl IH]; intros HB; cbn [map]; constructor; auto.
      - intros I. apply in_map_iff in I. destruct I as (y & E & Hy). apply Hx. replace x with y; auto.
        pose proof (HB x (or_introl eq_refl)). pose proof (HB y (or_intror Hy)). unfold arr_index in E.
        destruct (Z.ltb_spec x 0); destruct (Z.ltb_spec y 0); lia.
      - apply IH. intros y Hy. apply HB. right; auto. }
    apply K; [apply zrange_nodup|]. intros x Hx. apply in_zrange in Hx. exact Hx.
  - rewrite map_length, !zrange_length. lia.
  - intros y Hy. apply in_map_iff in Hy. destruct Hy as (x & <- & Hx). apply in_zrange in Hx. apply in_zrange.
    unfold arr_index. destruct (Z.ltb_spec x 0); lia.
Qed.
Lemma arr_mark a t : arr_tree a t -> forall root, arr_index root (Z.of_nat (length (a_feature a))) (mark t) = root.
Proof.
  intros (L1 & L2 & L3 & H & P & M) root. unfold arr_index. pose proof (perm_size t _ _ P) as PS.
  destruct (Z.eq_dec (Z.of_nat (length (a_feature a))) 0) as [E|E].
  - rewrite E in *. destruct t as [i v|i f x l r]; cbn [arr_holds mark] in *.
    + destruct H as [H1 H2]. destruct (Z.ltb_spec i 0); [|lia]. cbn [size] in PS.
      apply zget_some_bound in H2. lia.
    + destruct H as (H1 & H2 & _). apply zget_some_bound in H2. lia.
  - rewrite M by lia. destruct (Z.ltb_spec 0 0); lia.
Qed.

(** The whole tree. *)
Lemma arrays_tree_done k root a (e e2 e' : ensemble N) t w : arr_tree a t -> fits16 t ->
  e2 = mkEns (e_ntrees e) (e_nnodes e) (upd (e_root e) k root) (upd (e_weight e) k w) (e_left e) (e_right e) (e_value e) (e_feature e) ->
  nodes_only e2 e' -> arrays_done root a e2 e' ->
  (forall j, root <= j < root + Z.of_nat (size t) -> blank_cell e j) ->
  tree_done k root e e' (relabel (arr_index root (Z.of_nat (length (a_feature a)))) (conv t)) w.
Proof.
  intros AT F -> NO D BL. pose proof (arr_mark a t AT root) as MK. destruct AT as (L1 & L2 & L3 & H & P & M).
  pose proof (perm_size t _ _ P) as PS.
  destruct NO as (M1 & M2 & M3 & M4 & M5 & M6 & M7 & M8). unfold tree_done.
  rewrite size_relabel, size_convert, mark_relabel, mark_convert, marks_relabel, marks_convert.
  cbn [e_ntrees e_nnodes e_root e_weight e_left e_right e_value e_feature] in *.
  repeat (split; [assumption|]). split; [|split; [|split]].
  - destruct D as (D1 & D2 & D3 & D4). intros j Hj. unfold same_cell. rewrite D1, D2, D3, D4.
    cbn [e_ntrees e_nnodes e_root e_weight e_left e_right e_value e_feature].
    rewrite !(zget_none _ (j - root)) by lia. rewrite (zget_none (a_leaf a)) by lia. auto.
  - eapply arrays_represents; eauto. intros j Hj. apply BL. lia.
  - exact MK.
  - rewrite (Permutation_map _ P). rewrite PS, Nat2Z.inj_add. apply index_perm; lia.
Qed.
End Block.
