(** Proofs about the drawing of trees: boxes, dots and arrows. *)
From Coq Require Import Ascii String List ZArith Bool Lia Permutation Sorted.
From Verif Require Import Base Num Lists M_Text M_Ensemble S_Ensemble S_Loaders L_Ensemble L_Ensemble2 M_Effectiveness L_Effectiveness6 M_Graphviz S_Graphviz L_Graphviz.
Import ListNotations.
Local Open Scope Z_scope.

Section Draw.
Context {N : num}.
Notation tree := (tree Z N).
Variables (e : ensemble N) (o : options) (tid root : Z) (counts : list (Z * Z)) (bd : bounds (N:=N)) (col : list Z).
Hypothesis Hroot : py_get (e_root e) tid = Ok root.
Notation m := (o_max_depth o).

(** [bd] is of the right kind. *)
Definition kind_ok : Prop := match o_leaves o, bd with Some _, CountBounds _ _ => True | None, ValueBounds _ _ => True | _, _ => False end.
Definition named (s : tree) : Prop :=
  match o_names o, s with Some names, Node _ f _ _ _ => 0 <= f < Z.of_nat (length names) | _, _ => True end.
Lemma describe_ok s : kind_ok -> represents e s -> named s -> (o_leaves o <> None -> dget counts (mark s) = arrivals col s) ->
  describe e o counts bd (mark s) = Ok (picture o col bd s).
Proof.
  intros K R Hn Hc. unfold describe. rewrite (leaf_test e s R). cbn [bind].
  destruct s as [i v|i f thr l r]; cbn [represents mark is_leaf] in *; unfold picture, colour, counted, percentage, text_of, named, kind_ok in *.
  - destruct R as (_ & _ & _ & Hv). rewrite (py_get_zget _ _ _ Hv). cbn [bind]. f_equal. destruct (o_leaves o) as [rows|] eqn:EL.
    + rewrite Hc by discriminate. destruct bd; [|destruct K]. cbn [is_leaf]. rewrite orb_true_r. cbn [andb orb]. destruct (o_label o); reflexivity.
    + destruct bd; [destruct K|]. cbn [andb]. reflexivity.
  - destruct R as (_ & _ & Hf & Hv & _). rewrite (py_get_zget _ _ _ Hv). cbn [bind]. rewrite (py_get_zget _ _ _ Hf). cbn [bind].
    assert (E : match o_names o with Some names => do s <- py_get names f; Ok (Test (inl s) thr) | None => Ok (Test (inr f) thr) end
              = Ok (Test (match o_names o with Some names => inl (nth (Z.to_nat f) names []) | None => inr f end) thr)).
    { destruct (o_names o) as [names|]; [|reflexivity]. rewrite (py_get_zget names f (nth (Z.to_nat f) names [])); [reflexivity|]. apply zget_some_nth. exact Hn. }
    rewrite E. cbn [bind]. f_equal. destruct (o_leaves o) as [rows|] eqn:EL.
    + rewrite Hc by discriminate. destruct bd; [|destruct K]. cbn [is_leaf]. rewrite orb_false_r. cbn [andb orb]. destruct (o_label o); cbn [orb]; reflexivity.
    + destruct bd; [destruct K|]. reflexivity.
Qed.

(** The drawing of a subtree; [inc] is its father and whether it hangs on the left. *)
Definition arrow_in (depth : Z) (inc : option (Z * bool)) (i : Z) : list (item N) :=
  match inc with None => [] | Some (p, b) => [Arrow p i (if (depth =? 1) && within m depth then Some b else None)] end.
Fixpoint draw (depth : Z) (inc : option (Z * bool)) (s : tree) : list (item N) :=
  if within m depth then
    Box (mark s) (picture o col bd s) :: arrow_in depth inc (mark s) ++
    match s with Leaf _ _ => [] | Node i _ _ l r => draw (depth + 1) (Some (i, true)) l ++ draw (depth + 1) (Some (i, false)) r end
  else Dots (mark s) (match o_leaves o with Some _ => Grey | None => if o_highlight o then Grey else NoFill end) :: arrow_in depth inc (mark s).
Fixpoint lines (depth : Z) (s : tree) : list (option Z * Z) :=
  match s with
  | Leaf i _ => [(None, i)]
  | Node i _ _ l r => if within m depth then (Some depth, i) :: lines (depth + 1) l ++ lines (depth + 1) r else [(None, i)]
  end.

(** Where the subtree hangs. *)
Definition hangs (depth : Z) (inc : option (Z * bool)) (s : tree) : Prop :=
  match inc with
  | None => depth = 0 /\ mark s = root
  | Some (p, b) => 1 <= depth /\ ~ In root (marks s) /\ is_leaf_node e p = Ok false /\ (root =? p) = (depth =? 1) /\ exists lc, py_get (e_left e) p = Ok lc /\ (lc =? mark s) = b
  end.
Lemma hangs_children depth inc i f thr l r : hangs depth inc (Node i f thr l r) -> represents e (Node i f thr l r) -> NoDup (marks (Node i f thr l r)) ->
  hangs (depth + 1) (Some (i, true)) l /\ hangs (depth + 1) (Some (i, false)) r.
Proof.
  intros H R ND. pose proof (leaf_test e _ R) as E. cbn [mark is_leaf] in E. cbn [represents] in R. destruct R as (R1 & R2 & _ & _ & Rl & Rr).
  apply nodup_node in ND as (N1 & N2 & NDl & NDr & Dj).
  assert (P : 1 <= depth + 1 /\ ~ In root (marks l) /\ ~ In root (marks r) /\ (root =? i) = (depth + 1 =? 1)).
  { destruct inc as [[p b]|]; cbn [hangs mark marks] in H.
    - destruct H as (H1 & H2 & _). cbn [In] in H2. rewrite in_app_iff in H2. split; [lia|]. split; [tauto|]. split; [tauto|].
      replace (depth + 1 =? 1) with false by (symmetry; apply Z.eqb_neq; lia). apply Z.eqb_neq. intros G. apply H2. left. auto.
    - destruct H as [-> H]. rewrite <- H. split; [lia|]. split; [exact N1|]. split; [exact N2|]. rewrite Z.eqb_refl. reflexivity. }
  destruct P as (P1 & P2 & P3 & P4). split; cbn [hangs].
  - split; [exact P1|]. split; [exact P2|]. split; [exact E|]. split; [exact P4|]. exists (mark l). split; [apply py_get_zget, R1|apply Z.eqb_refl].
  - split; [exact P1|]. split; [exact P3|]. split; [exact E|]. split; [exact P4|]. exists (mark l). split; [apply py_get_zget, R1|].
    apply Z.eqb_neq. intros G. apply (Dj (mark l)); [apply mark_in_marks|rewrite G; apply mark_in_marks].
Qed.
Lemma arrow_ok depth inc (s : tree) : within m depth = true -> hangs depth inc s ->
  match option_map fst inc with
  | None => Ok []
  | Some p =>
      do rt <- py_get (e_root e) tid;
      if rt =? p then do l <- py_get (e_left e) p; Ok [Arrow p (mark s) (Some (l =? mark s))] else Ok [Arrow p (mark s) None]
  end = Ok (arrow_in depth inc (mark s)).
Proof.
  intros W H. destruct inc as [[p b]|]; [|reflexivity]. cbn [option_map fst hangs arrow_in] in *. destruct H as (_ & _ & _ & H1 & lc & H2 & H3).
  rewrite Hroot. cbn [bind]. rewrite H1, W. destruct (depth =? 1); cbn [andb]; [|reflexivity]. rewrite H2. cbn [bind]. rewrite H3. reflexivity.
Qed.
Lemma parent_ok depth inc (s : tree) : hangs depth inc s -> match option_map fst inc with Some p => is_leaf_node e p | None => Ok false end = Ok false.
Proof. destruct inc as [[p b]|]; cbn [hangs option_map fst]; intros H; [apply H|reflexivity]. Qed.

Definition describable (depth : Z) (s : tree) : Prop :=
  forall x, In x (visible m depth s) -> describe e o counts bd (mark x) = Ok (picture o col bd x).
Lemma visible_node depth i f thr l r : within m depth = true -> forall x : tree, In x (visible m depth (Node i f thr l r)) <-> x = Node i f thr l r \/ In x (visible m (depth + 1) l) \/ In x (visible m (depth + 1) r).
Proof. intros W x. cbn [visible]. rewrite W. cbn [In]. rewrite in_app_iff. intuition. Qed.
Lemma visible_root depth (s : tree) : within m depth = true -> In s (visible m depth s).
Proof. intros W. destruct s; cbn [visible]; rewrite W; left; reflexivity. Qed.

Definition deep_enough (depth : Z) (s : tree) : Prop := match m with None => True | Some k => depth + Z.of_nat (height s) <= k end.
Lemma deep_within depth s : deep_enough depth s -> within m depth = true.
Proof. unfold deep_enough, within. destruct m; [|reflexivity]. intros H. apply Z.leb_le. lia. Qed.
Lemma deep_children depth i f thr l r : deep_enough depth (Node i f thr l r) <-> deep_enough (depth + 1) l /\ deep_enough (depth + 1) r.
Proof. unfold deep_enough. destruct m; [|tauto]. cbn [height]. lia. Qed.

Lemma recurse_ok : forall (s : tree) fuel depth inc, (height s < fuel)%nat -> represents e s -> NoDup (marks s) -> hangs depth inc s -> describable depth s ->
  (o_np_mapping o = true \/ deep_enough depth s) ->
  recurse e o tid counts bd fuel (mark s) (option_map fst inc) depth = Ok (draw depth inc s, lines depth s).
Proof.
  induction s as [i v|i f thr l IHl r IHr]; intros fuel depth inc Hf R ND H D M; (destruct fuel as [|fuel]; [lia|]).
  - pose proof (leaf_test e _ R) as E. cbn [recurse]. rewrite (parent_ok _ _ _ H). cbn [bind]. cbn [draw lines].
    fold (within m depth). destruct (within m depth) eqn:W.
    + rewrite E. cbn [bind is_leaf]. rewrite (D _ (visible_root _ _ W)). cbn [bind]. rewrite (arrow_ok _ _ _ W H). cbn [bind].
      rewrite app_nil_r. reflexivity.
    + replace (negb (o_np_mapping o)) with false; [|destruct M as [M|M]; [rewrite M; reflexivity|apply deep_within in M; congruence]].
      unfold arrow_in. rewrite W, andb_false_r. destruct inc as [[p b]|]; reflexivity.
  - pose proof (leaf_test e _ R) as E. destruct (hangs_children _ _ _ _ _ _ _ H R ND) as [Gl Gr]. cbn [recurse]. rewrite (parent_ok _ _ _ H). cbn [bind]. cbn [draw lines].
    fold (within m depth). destruct (within m depth) eqn:W.
    + rewrite E. cbn [bind is_leaf]. rewrite (D _ (visible_root _ _ W)). cbn [bind]. rewrite (arrow_ok _ _ _ W H). cbn [bind mark].
      cbn [represents] in R. destruct R as (R1 & R2 & _ & _ & Rl & Rr). rewrite (py_get_zget _ _ _ R1). cbn [bind].
      apply nodup_node in ND as (_ & _ & NDl & NDr & _). cbn [height] in Hf. rewrite deep_children in M.
      change (Some i) with (option_map fst (Some (i, true))) at 1. rewrite (IHl fuel (depth + 1) (Some (i, true))); [|lia|exact Rl|exact NDl|exact Gl| |tauto].
      2:{ intros x Hx. apply D. apply visible_node; auto. }
      cbn [bind]. rewrite (py_get_zget _ _ _ R2). cbn [bind].
      change (Some i) with (option_map fst (Some (i, false))) at 1. rewrite (IHr fuel (depth + 1) (Some (i, false))); [|lia|exact Rr|exact NDr|exact Gr| |tauto].
      2:{ intros x Hx. apply D. apply visible_node; auto. }
      cbn [bind fst snd]. reflexivity.
    + replace (negb (o_np_mapping o)) with false; [|destruct M as [M|M]; [rewrite M; reflexivity|apply deep_within in M; congruence]].
      unfold arrow_in. rewrite W, andb_false_r. destruct inc as [[p b]|]; reflexivity.
Qed.

(** Without mappings the first dots are a TypeError. *)
Lemma recurse_error : forall (s : tree) fuel depth inc, (height s < fuel)%nat -> represents e s -> NoDup (marks s) -> hangs depth inc s -> describable depth s ->
  o_np_mapping o = false -> ~ deep_enough depth s ->
  recurse e o tid counts bd fuel (mark s) (option_map fst inc) depth = Err TypeError.
Proof.
  induction s as [i v|i f thr l IHl r IHr]; intros fuel depth inc Hf R ND H D M X; (destruct fuel as [|fuel]; [lia|]).
  - cbn [recurse]. rewrite (parent_ok _ _ _ H). cbn [bind]. fold (within m depth). destruct (within m depth) eqn:W.
    + exfalso. apply X. unfold deep_enough, within in *. destruct m; [|exact I]. cbn [height]. apply Z.leb_le in W. lia.
    + rewrite M. reflexivity.
  - pose proof (leaf_test e _ R) as E. destruct (hangs_children _ _ _ _ _ _ _ H R ND) as [Gl Gr]. cbn [recurse]. rewrite (parent_ok _ _ _ H). cbn [bind].
    fold (within m depth). destruct (within m depth) eqn:W; [|rewrite M; reflexivity].
    rewrite E. cbn [bind is_leaf]. rewrite (D _ (visible_root _ _ W)). cbn [bind]. rewrite (arrow_ok _ _ _ W H). cbn [bind mark].
    cbn [represents] in R. destruct R as (R1 & R2 & _ & _ & Rl & Rr). rewrite (py_get_zget _ _ _ R1). cbn [bind].
    apply nodup_node in ND as (_ & _ & NDl & NDr & _). cbn [height] in Hf. rewrite deep_children in X.
    assert (Dl : describable (depth + 1) l) by (intros x Hx; apply D; apply visible_node; auto).
    assert (Dr : describable (depth + 1) r) by (intros x Hx; apply D; apply visible_node; auto).
    assert (C : deep_enough (depth + 1) l \/ ~ deep_enough (depth + 1) l) by (unfold deep_enough; destruct m; [lia|left; exact I]).
    destruct C as [C|C].
    + change (Some i) with (option_map fst (Some (i, true))) at 1. rewrite (recurse_ok l fuel (depth + 1) (Some (i, true))); [|lia|exact Rl|exact NDl|exact Gl|exact Dl|right; exact C].
      cbn [bind]. rewrite (py_get_zget _ _ _ R2). cbn [bind].
      change (Some i) with (option_map fst (Some (i, false))) at 1. rewrite (IHr fuel (depth + 1) (Some (i, false))); [reflexivity|lia|exact Rr|exact NDr|exact Gr|exact Dr|exact M|tauto].
    + change (Some i) with (option_map fst (Some (i, true))) at 1. rewrite (IHl fuel (depth + 1) (Some (i, true))); [reflexivity|lia|exact Rl|exact NDl|exact Gl|exact Dl|exact M|exact C].
Qed.

(** A finished drawing has described everything. *)
Lemma recurse_described : forall (s : tree) fuel depth parent x, represents e s -> recurse e o tid counts bd fuel (mark s) parent depth = Ok x ->
  forall y, In y (visible m depth s) -> exists b, describe e o counts bd (mark y) = Ok b.
Proof.
  induction s as [i v|i f thr l IHl r IHr]; intros fuel depth parent x R H y Hy; (destruct fuel as [|fuel]; [discriminate H|]).
  - pose proof (leaf_test e _ R) as E. cbn [recurse] in H. cbn [visible] in Hy. destruct (match parent with Some p => is_leaf_node e p | None => Ok false end) as [[|]|]; try discriminate H. cbn [bind] in H.
    fold (within m depth) in H. destruct (within m depth); [|destruct Hy]. destruct Hy as [<-|[]]. rewrite E in H. cbn [bind] in H.
    destruct (describe e o counts bd (mark (Leaf i v))) as [b|]; [|discriminate H]. exists b. reflexivity.
  - pose proof (leaf_test e _ R) as E. cbn [recurse] in H. cbn [visible] in Hy. destruct (match parent with Some p => is_leaf_node e p | None => Ok false end) as [[|]|]; try discriminate H. cbn [bind] in H.
    fold (within m depth) in H. destruct (within m depth); [|destruct Hy]. rewrite E in H. cbn [bind is_leaf] in H.
    destruct (describe e o counts bd (mark (Node i f thr l r))) as [b|] eqn:B; [|discriminate H]. cbn [bind] in H.
    match type of H with bind ?a _ = _ => destruct a as [ar|]; [|discriminate H] end. cbn [bind mark] in H.
    cbn [represents] in R. destruct R as (R1 & R2 & _ & _ & Rl & Rr). rewrite (py_get_zget _ _ _ R1) in H. cbn [bind] in H.
    destruct (recurse e o tid counts bd fuel (mark l) (Some i) (depth + 1)) as [xl|] eqn:Xl; [|discriminate H]. cbn [bind] in H.
    rewrite (py_get_zget _ _ _ R2) in H. cbn [bind] in H.
    destruct (recurse e o tid counts bd fuel (mark r) (Some i) (depth + 1)) as [xr|] eqn:Xr; [|discriminate H].
    destruct Hy as [<-|Hy]; [exists b; exact B|]. apply in_app_or in Hy as [Hy|Hy]; eauto.
Qed.

(** The parts of the drawing. *)
Lemma boxes_app (a b : list (item N)) : boxes (a ++ b) = boxes a ++ boxes b. Proof. apply flat_map_app. Qed.
Lemma dots_app (a b : list (item N)) : dots (a ++ b) = dots a ++ dots b. Proof. apply flat_map_app. Qed.
Lemma arrows_app (a b : list (item N)) : arrows (a ++ b) = arrows a ++ arrows b. Proof. apply flat_map_app. Qed.
Lemma ranks_app (a b : list (item N)) : ranks (a ++ b) = ranks a ++ ranks b. Proof. apply flat_map_app. Qed.
Lemma arrow_in_parts depth inc i : boxes (arrow_in depth inc i) = [] /\ dots (arrow_in depth inc i) = [] /\ ranks (arrow_in depth inc i) = [].
Proof. destruct inc as [[p b]|]; cbn; auto. Qed.
Lemma draw_boxes : forall (s : tree) depth inc, boxes (draw depth inc s) = map (fun x => (mark x, picture o col bd x)) (visible m depth s).
Proof.
  induction s as [i v|i f thr l IHl r IHr]; intros depth inc; cbn [draw visible]; destruct (within m depth).
  - unfold boxes. cbn [flat_map app]. rewrite flat_map_app. fold (boxes (arrow_in depth inc (mark (Leaf i v)))). rewrite (proj1 (arrow_in_parts _ _ _)). reflexivity.
  - unfold boxes. cbn [flat_map]. fold (boxes (arrow_in depth inc (mark (Leaf i v)))). rewrite (proj1 (arrow_in_parts _ _ _)). reflexivity.
  - unfold boxes at 1. cbn [flat_map]. rewrite flat_map_app. fold (boxes (arrow_in depth inc (mark (Node i f thr l r)))). rewrite (proj1 (arrow_in_parts _ _ _)).
    rewrite flat_map_app. fold (boxes (draw (depth + 1) (Some (i, true)) l)) (boxes (draw (depth + 1) (Some (i, false)) r)). rewrite IHl, IHr. cbn [app map]. rewrite map_app. reflexivity.
  - unfold boxes. cbn [flat_map]. fold (boxes (arrow_in depth inc (mark (Node i f thr l r)))). rewrite (proj1 (arrow_in_parts _ _ _)). reflexivity.
Qed.
Lemma draw_dots : forall (s : tree) depth inc, dots (draw depth inc s) = map mark (cut m depth s).
Proof.
  induction s as [i v|i f thr l IHl r IHr]; intros depth inc; cbn [draw cut]; destruct (within m depth).
  - unfold dots. cbn [flat_map app]. rewrite flat_map_app. fold (dots (arrow_in depth inc (mark (Leaf i v)))). rewrite (proj1 (proj2 (arrow_in_parts _ _ _))). reflexivity.
  - unfold dots. cbn [flat_map]. fold (dots (arrow_in depth inc (mark (Leaf i v)))). rewrite (proj1 (proj2 (arrow_in_parts _ _ _))). reflexivity.
  - unfold dots at 1. cbn [flat_map app]. rewrite flat_map_app. fold (dots (arrow_in depth inc (mark (Node i f thr l r)))). rewrite (proj1 (proj2 (arrow_in_parts _ _ _))).
    rewrite flat_map_app. fold (dots (draw (depth + 1) (Some (i, true)) l)) (dots (draw (depth + 1) (Some (i, false)) r)). rewrite IHl, IHr. cbn [app]. rewrite map_app. reflexivity.
  - unfold dots. cbn [flat_map]. fold (dots (arrow_in depth inc (mark (Node i f thr l r)))). rewrite (proj1 (proj2 (arrow_in_parts _ _ _))). reflexivity.
Qed.
Lemma draw_ranks : forall (s : tree) depth inc, ranks (draw depth inc s) = [].
Proof.
  induction s as [i v|i f thr l IHl r IHr]; intros depth inc; cbn [draw]; destruct (within m depth).
  - unfold ranks. cbn [flat_map app]. rewrite flat_map_app. fold (ranks (arrow_in depth inc (mark (Leaf i v)))). rewrite (proj2 (proj2 (arrow_in_parts _ _ _))). reflexivity.
  - unfold ranks. cbn [flat_map]. fold (ranks (arrow_in depth inc (mark (Leaf i v)))). rewrite (proj2 (proj2 (arrow_in_parts _ _ _))). reflexivity.
  - unfold ranks at 1. cbn [flat_map app]. rewrite flat_map_app. fold (ranks (arrow_in depth inc (mark (Node i f thr l r)))). rewrite (proj2 (proj2 (arrow_in_parts _ _ _))).
    rewrite flat_map_app. fold (ranks (draw (depth + 1) (Some (i, true)) l)) (ranks (draw (depth + 1) (Some (i, false)) r)). rewrite IHl, IHr. reflexivity.
  - unfold ranks. cbn [flat_map]. fold (ranks (arrow_in depth inc (mark (Node i f thr l r)))). rewrite (proj2 (proj2 (arrow_in_parts _ _ _))). reflexivity.
Qed.
Lemma draw_arrows : forall (s : tree) depth inc, 0 <= depth -> arrows (draw depth inc s) = arrows (arrow_in depth inc (mark s)) ++ links m depth s.
Proof.
  induction s as [i v|i f thr l IHl r IHr]; intros depth inc Hd; cbn [draw links]; destruct (within m depth) eqn:W.
  - unfold arrows. cbn [flat_map app]. rewrite flat_map_app. reflexivity.
  - unfold arrows. cbn [flat_map app]. rewrite app_nil_r. reflexivity.
  - unfold arrows at 1. cbn [flat_map app]. rewrite flat_map_app. f_equal. rewrite flat_map_app.
    fold (arrows (draw (depth + 1) (Some (i, true)) l)) (arrows (draw (depth + 1) (Some (i, false)) r)). rewrite IHl, IHr by lia.
    unfold arrow_in, arrows. cbn [flat_map app]. replace (depth + 1 =? 1) with (depth =? 0); [reflexivity|].
    destruct (Z.eqb_spec depth 0), (Z.eqb_spec (depth + 1) 1); lia || reflexivity.
  - unfold arrows. cbn [flat_map app]. rewrite app_nil_r. reflexivity.
Qed.

(** The lines of equal rank. *)
Lemma lines_filter (s : tree) : forall depth k,
  map snd (filter (fun p => if okey_dec (fst p) k then true else false) (lines depth s)) = map mark (match k with None => bottom m depth s | Some d => level m d depth s end).
Proof.
  induction s as [i v|i f thr l IHl r IHr]; intros depth k; cbn [lines bottom level].
  - cbn [filter fst]. destruct k as [d|]; [reflexivity|]. destruct (within m depth); reflexivity.
  - destruct (within m depth); cbn [filter fst].
    + rewrite filter_app. destruct k as [d|].
      * destruct (okey_dec (Some depth) (Some d)) as [E|E].
        -- injection E as ->. rewrite Z.eqb_refl. cbn [map snd app mark]. rewrite !map_app, IHl, IHr. reflexivity.
        -- replace (depth =? d) with false by (symmetry; apply Z.eqb_neq; congruence). cbn [app]. rewrite !map_app, IHl, IHr. reflexivity.
      * destruct (okey_dec (Some depth) None) as [E|E]; [discriminate E|]. rewrite !map_app, IHl, IHr. reflexivity.
    + destruct k as [d|]; reflexivity.
Qed.
Lemma rank_items_ok (s : tree) : ranks_fit m s (ranks (N:=N) (rank_items (lines 0 s))) /\ boxes (N:=N) (rank_items (lines 0 s)) = [] /\ dots (N:=N) (rank_items (lines 0 s)) = [] /\ arrows (N:=N) (rank_items (lines 0 s)) = [].
Proof.
  set (rk := lines 0 s). unfold rank_items. set (keys := isort _ _).
  assert (P : Permutation keys (nodup okey_dec (map fst rk))) by (unfold keys; apply isort_perm).
  assert (ND : NoDup keys) by (apply (Permutation_NoDup (Permutation_sym P)), NoDup_nodup).
  assert (IN : forall k, In k keys <-> In k (map fst rk)).
  { intros k. rewrite <- (nodup_In okey_dec (map fst rk)). split; apply Permutation_in; [exact P|apply Permutation_sym, P]. }
  set (g := fun k => Rank (N:=N) k (map snd (filter (fun p : option Z * Z => if okey_dec (fst p) k then true else false) rk))).
  assert (E : ranks (map g keys) = map (fun k => (k, map mark (match k with None => bottom m 0 s | Some d => level m d 0 s end))) keys).
  { clear. induction keys as [|k keys IH]; [reflexivity|]. cbn [map]. unfold ranks in *. cbn [flat_map]. rewrite IH. unfold g. cbn [app]. f_equal. f_equal. unfold rk. apply lines_filter. }
  split; [|clear; induction keys as [|k keys (A & B & C)]; [auto|]; cbn [map]; unfold boxes, dots, arrows in *; cbn [flat_map]; rewrite A, B, C; auto].
  rewrite E. split; [rewrite map_map; cbn [fst]; rewrite map_id; exact ND|].
  intros k ids. rewrite in_map_iff. split.
  - intros (k' & H & Hk). injection H as -> <-. split; [|reflexivity]. rewrite <- (lines_filter s 0 k). fold rk. apply IN in Hk. apply in_map_iff in Hk as ((k', j) & Ek & Hk). cbn [fst] in Ek. subst k'.
    intros F. apply map_eq_nil in F. assert (G : In (k, j) (filter (fun p : option Z * Z => if okey_dec (fst p) k then true else false) rk)).
    { apply filter_In. split; [exact Hk|]. cbn [fst]. destruct (okey_dec k k); [reflexivity|congruence]. }
    rewrite F in G. exact G.
  - intros (H & ->). exists k. split; [reflexivity|]. apply IN. rewrite <- (lines_filter s 0 k) in H. fold rk in H.
    destruct (filter _ rk) as [|[k' j] rest] eqn:F; [cbn in H; congruence|]. assert (G : In (k', j) (filter (fun p : option Z * Z => if okey_dec (fst p) k then true else false) rk)) by (rewrite F; left; auto).
    apply filter_In in G as [G1 G2]. cbn [fst] in G2. destruct (okey_dec k' k) as [->|]; [|discriminate G2]. apply (in_map fst) in G1. exact G1.
Qed.
End Draw.
