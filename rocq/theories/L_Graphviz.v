(** Proofs about the drawing of trees: the counts. *)
From Coq Require Import Ascii String List ZArith Bool Lia Permutation Sorted.
From Verif Require Import Base Num Lists M_Text M_Ensemble S_Ensemble S_Loaders L_Ensemble L_Ensemble2 M_Effectiveness L_Effectiveness6 M_Graphviz S_Graphviz.
Import ListNotations.
Local Open Scope Z_scope.

Lemma dget_app d d' x : dget (d ++ d') x = if dhas d x then dget d x else dget d' x.
Proof.
  unfold dget, dhas. induction d as [|[k v] d IH]; cbn [app find existsb fst]; [reflexivity|].
  destruct (k =? x) eqn:E; cbn [orb]; [reflexivity|exact IH].
Qed.
Lemma dhas_in d x : dhas d x = true <-> In x (map fst d).
Proof.
  unfold dhas. rewrite existsb_exists, in_map_iff. split; intros ([k v] & H1 & H2); exists (k, v); cbn [fst] in *.
  - apply Z.eqb_eq in H2. auto.
  - split; [exact H2|]. apply Z.eqb_eq. exact H1.
Qed.
Lemma dget_missing d x : dhas d x = false -> dget d x = 0.
Proof. unfold dget, dhas. induction d as [|[k v] d IH]; cbn [find existsb fst]; [reflexivity|]. destruct (k =? x); [discriminate|exact IH]. Qed.
Lemma dget_touch d k x : dget (dtouch d k) x = dget d x.
Proof.
  unfold dtouch. destruct (dhas d k) eqn:E; [reflexivity|]. rewrite dget_app. destruct (dhas d x) eqn:F; [reflexivity|].
  rewrite (dget_missing d x F). unfold dget. cbn [find fst]. destruct (k =? x); reflexivity.
Qed.
Lemma dget_set d k v x : dget (dset d k v) x = if x =? k then v else dget d x.
Proof.
  unfold dset. destruct (dhas d k) eqn:E.
  - assert (G : forall d, dhas d k = true -> dget (map (fun p : Z * Z => if fst p =? k then (k, v) else p) d) x = if x =? k then v else dget d x).
    { clear. intros d. unfold dget. induction d as [|[a b] d IH]; intros E; [discriminate E|]. unfold dhas in *. cbn [existsb map find fst] in *.
      destruct (a =? k) eqn:F; cbn [fst].
      - apply Z.eqb_eq in F. subst a. rewrite (Z.eqb_sym k x). destruct (x =? k) eqn:G; [reflexivity|]. clear IH E.
        induction d as [|[a b'] d IH]; cbn [map find fst]; [reflexivity|]. destruct (a =? k) eqn:H; cbn [fst].
        + apply Z.eqb_eq in H. subst a. rewrite (Z.eqb_sym k x), G. exact IH.
        + destruct (a =? x); [reflexivity|exact IH].
      - destruct (a =? x) eqn:G; [|apply IH; exact E]. apply Z.eqb_eq in G. subst a. rewrite F. reflexivity. }
    apply G, E.
  - rewrite dget_app. destruct (dhas d x) eqn:F.
    + destruct (x =? k) eqn:G; [|reflexivity]. apply Z.eqb_eq in G. subst. congruence.
    + rewrite (dget_missing d x F). unfold dget. cbn [find fst]. rewrite (Z.eqb_sym k x). destruct (x =? k); reflexivity.
Qed.
Lemma keys_touch d k : map fst (dtouch d k) = if dhas d k then map fst d else map fst d ++ [k].
Proof. unfold dtouch. destruct (dhas d k); [reflexivity|]. rewrite map_app. reflexivity. Qed.
Lemma keys_set d k v : map fst (dset d k v) = if dhas d k then map fst d else map fst d ++ [k].
Proof.
  unfold dset. destruct (dhas d k); [|rewrite map_app; reflexivity]. rewrite map_map. apply map_ext. intros [a b]. cbn [fst].
  destruct (a =? k) eqn:E; [|reflexivity]. apply Z.eqb_eq in E. auto.
Qed.
Lemma keys_add d k (l : list Z) : l = (if dhas d k then map fst d else map fst d ++ [k]) ->
  (forall x, In x l <-> In x (map fst d) \/ x = k) /\ (NoDup (map fst d) -> NoDup l).
Proof.
  intros ->. destruct (dhas d k) eqn:E.
  - apply dhas_in in E. split; [|auto]. intros x. split; [auto|]. intros [H| ->]; auto.
  - split.
    + intros x. rewrite in_app_iff. cbn [In]. intuition.
    + intros ND. apply (Permutation_NoDup (Permutation_cons_append (map fst d) k)). constructor; [|exact ND].
      intros H. apply dhas_in in H. congruence.
Qed.
Lemma dget_in d k v : NoDup (map fst d) -> In (k, v) d -> dget d k = v.
Proof.
  unfold dget. induction d as [|[a b] d IH]; intros ND H; [destruct H|]. cbn [map fst] in ND. inversion ND as [|? ? N1 N2]; subst. cbn [find fst].
  destruct H as [H|H].
  - injection H as -> ->. rewrite Z.eqb_refl. reflexivity.
  - destruct (a =? k) eqn:E; [|apply IH; auto]. apply Z.eqb_eq in E. subst. exfalso. apply N1. apply (in_map fst) in H. exact H.
Qed.
Lemma values_of d : NoDup (map fst d) -> forall v, In v (map snd d) <-> exists k, In k (map fst d) /\ v = dget d k.
Proof.
  intros ND v. split.
  - intros H. apply in_map_iff in H as ([k w] & <- & H). exists k. split; [apply (in_map fst) in H; exact H|]. symmetry. apply dget_in; auto.
  - intros (k & H & ->). apply in_map_iff in H as ([k' w] & E & H). cbn [fst] in E. subst k'. rewrite (dget_in d k w ND H). apply (in_map snd) in H. exact H.
Qed.

Definition occurrences (col : list Z) (x : Z) : Z := Z.of_nat (length (filter (Z.eqb x) col)).
Lemma unique_nodup l : NoDup (unique l).
Proof. apply sorted_nodup, unique_sorted. Qed.
Lemma tally_keys col : map fst (tally col) = unique col.
Proof. unfold tally. rewrite map_map. apply map_id. Qed.
Lemma dget_tally col x : dget (tally col) x = occurrences col x.
Proof.
  destruct (in_dec Z.eq_dec x col) as [H|H].
  - apply dget_in; [rewrite tally_keys; apply unique_nodup|]. unfold tally. apply in_map_iff. exists x. split; [reflexivity|]. apply unique_in. exact H.
  - rewrite dget_missing.
    + unfold occurrences. replace (filter (Z.eqb x) col) with (@nil Z); [reflexivity|]. symmetry.
      induction col as [|a col IH]; [reflexivity|]. cbn [filter]. destruct (x =? a) eqn:E; [apply Z.eqb_eq in E; subst; exfalso; apply H; left; auto|].
      apply IH. intros G. apply H. right. exact G.
    + destruct (dhas (tally col) x) eqn:E; [|reflexivity]. apply dhas_in in E. rewrite tally_keys, unique_in in E. contradiction.
Qed.

Definition dsum (d : list (Z * Z)) (l : list Z) : Z := fold_right Z.add 0 (map (dget d) l).
Lemma dsum_app d a b : dsum d (a ++ b) = dsum d a + dsum d b.
Proof. unfold dsum. induction a as [|x a IH]; cbn [app map fold_right]; lia. Qed.
Lemma dsum_same d d' l : (forall x, In x l -> dget d' x = dget d x) -> dsum d' l = dsum d l.
Proof.
  unfold dsum. induction l as [|x l IH]; intros H; [reflexivity|]. cbn [map fold_right]. rewrite (H x) by (left; auto). rewrite IH; [reflexivity|]. intros y Hy. apply H. right. exact Hy.
Qed.
Lemma dsum_occurrences col d l : NoDup l -> (forall x, In x l -> dget d x = occurrences col x) ->
  dsum d l = Z.of_nat (length (filter (fun j => existsb (Z.eqb j) l) col)).
Proof.
  intros ND H. transitivity (fold_right Z.add 0 (map (occurrences col) l)).
  { unfold dsum. f_equal. apply map_ext_in. exact H. }
  clear H d. induction col as [|a col IH]; cbn [filter].
  - unfold occurrences. cbn [filter length]. clear ND. induction l; cbn [map fold_right]; lia.
  - assert (E : fold_right Z.add 0 (map (occurrences (a :: col)) l) = (if existsb (Z.eqb a) l then 1 else 0) + fold_right Z.add 0 (map (occurrences col) l)).
    { clear IH. induction l as [|x l IHl]; [reflexivity|]. inversion ND as [|? ? N1 N2]; subst. cbn [map fold_right existsb]. rewrite (IHl N2). unfold occurrences at 1. cbn [filter].
      rewrite (Z.eqb_sym a x). destruct (x =? a) eqn:F; cbn [orb].
      - apply Z.eqb_eq in F. subst x. replace (existsb (Z.eqb a) l) with false.
        + cbn [length]. unfold occurrences. lia.
        + symmetry. destruct (existsb (Z.eqb a) l) eqn:G; [|reflexivity]. apply existsb_exists in G as (y & G1 & G2). apply Z.eqb_eq in G2. subst. contradiction.
      - unfold occurrences. lia. }
    rewrite E, IH. destruct (existsb (Z.eqb a) l); cbn [length]; lia.
Qed.

Section Tree.
Context {N : num}.
Notation tree := (tree Z N).
Lemma marks_subtrees (t : tree) : map mark (subtrees t) = marks t.
Proof. induction t; cbn; auto. rewrite map_app. congruence. Qed.
Lemma root_subtree (t : tree) : In t (subtrees t).
Proof. destruct t; cbn; auto. Qed.
Lemma subtree_mark (t s : tree) : In s (subtrees t) -> In (mark s) (marks t).
Proof. intros H. rewrite <- marks_subtrees. apply in_map, H. Qed.
Lemma exits_marks (t : tree) x : In x (exits t) -> In x (marks t).
Proof. induction t as [i v|i f thr l IHl r IHr]; cbn [exits marks]; [auto|]. rewrite in_app_iff. intros [H|H]; right; apply in_or_app; auto. Qed.
Lemma subtree_exits (t s : tree) : In s (subtrees t) -> incl (exits s) (exits t).
Proof.
  induction t as [i v|i f thr l IHl r IHr]; cbn [subtrees].
  - intros [<-|[]]. apply incl_refl.
  - intros [<-|H]; [apply incl_refl|]. cbn [exits]. intros y Hy. apply in_or_app. apply in_app_or in H as [H|H]; [left; apply IHl|right; apply IHr]; auto.
Qed.
Lemma nodup_node i f thr (l r : tree) : NoDup (marks (Node i f thr l r)) ->
  ~ In i (marks l) /\ ~ In i (marks r) /\ NoDup (marks l) /\ NoDup (marks r) /\ (forall x, In x (marks l) -> In x (marks r) -> False).
Proof.
  cbn [marks]. intros H. inversion H as [|? ? H1 H2]; subst. rewrite in_app_iff in H1.
  assert (G : NoDup (marks l) /\ NoDup (marks r) /\ forall x, In x (marks l) -> In x (marks r) -> False).
  { clear H1 H. revert H2. generalize (marks l) (marks r). intros a b. induction a as [|x a IH]; cbn [app]; intros H.
    - split; [constructor|]. split; [exact H|]. intros x [].
    - inversion H as [|? ? H1 H2]; subst. destruct (IH H2) as (G1 & G2 & G3). rewrite in_app_iff in H1. split; [constructor; auto|]. split; [exact G2|].
      intros y [<-|Hy] Hb; [apply H1; auto|]. exact (G3 y Hy Hb). }
  destruct G as (G1 & G2 & G3). repeat split; auto.
Qed.
Lemma exits_nodup (t : tree) : NoDup (marks t) -> NoDup (exits t).
Proof.
  induction t as [i v|i f thr l IHl r IHr]; intros H; [exact H|]. apply nodup_node in H as (_ & _ & H1 & H2 & H3). cbn [exits].
  specialize (IHl H1). specialize (IHr H2). assert (D : forall x, In x (exits l) -> In x (exits r) -> False) by (intros x A B; apply (H3 x); apply exits_marks; auto).
  revert IHl D. generalize (exits l). intros a Ha D. induction a as [|x a IH]; cbn [app]; [exact IHr|]. inversion Ha; subst. constructor.
  - rewrite in_app_iff. intros [G|G]; [contradiction|]. apply (D x); [left; auto|exact G].
  - apply IH; [assumption|]. intros y A B. apply (D y); [right; exact A|exact B].
Qed.
Lemma subtree_nodup (t s : tree) : NoDup (marks t) -> In s (subtrees t) -> NoDup (marks s).
Proof.
  induction t as [i v|i f thr l IHl r IHr]; intros ND; cbn [subtrees].
  - intros [<-|[]]. exact ND.
  - intros [<-|H]; [exact ND|]. apply nodup_node in ND as (_ & _ & H1 & H2 & _). apply in_app_or in H as [H|H]; auto.
Qed.
Lemma subtree_rep e (t s : tree) : represents e t -> In s (subtrees t) -> represents e s.
Proof.
  induction t as [i v|i f thr l IHl r IHr]; intros R; cbn [subtrees].
  - intros [<-|[]]. exact R.
  - intros [<-|H]; [exact R|]. cbn [represents] in R. destruct R as (_ & _ & _ & _ & R1 & R2). apply in_app_or in H as [H|H]; auto.
Qed.
Lemma leaf_test e (t : tree) : represents e t -> is_leaf_node e (mark t) = Ok (is_leaf t).
Proof.
  destruct t as [i v|i f thr l r]; cbn [represents mark is_leaf]; unfold is_leaf_node.
  - intros (H1 & H2 & _). rewrite (py_get_zget _ _ _ H1). cbn [bind]. rewrite Z.eqb_refl, (py_get_zget _ _ _ H2). reflexivity.
  - intros (H1 & H2 & _ & _ & Hl & _). rewrite (py_get_zget _ _ _ H1). cbn [bind]. apply rep_range in Hl.
    replace (mark l =? -1) with false by (symmetry; apply Z.eqb_neq; lia). reflexivity.
Qed.

Lemma count_ok e : forall (t : tree) fuel d, represents e t -> NoDup (marks t) -> (height t < fuel)%nat ->
  exists d', recursive_count fuel e d (mark t) = Ok (dsum d (exits t), d') /\
    (forall s, In s (subtrees t) -> dget d' (mark s) = dsum d (exits s)) /\ (forall x, ~ In x (marks t) -> dget d' x = dget d x) /\
    (forall x, In x (map fst d') <-> In x (map fst d) \/ In x (marks t)) /\ (NoDup (map fst d) -> NoDup (map fst d')).
Proof.
  induction t as [i v|i f thr l IHl r IHr]; intros fuel d R ND Hf; (destruct fuel as [|fuel]; [lia|]).
  - pose proof (leaf_test e _ R) as E. cbn [mark is_leaf] in E. cbn [recursive_count mark]. rewrite E. cbn [bind].
    exists (dtouch d i). cbn [exits marks subtrees]. split; [unfold dsum; cbn [map fold_right]; rewrite Z.add_0_r; reflexivity|].
    split; [intros s [<-|[]]; cbn [mark exits]; rewrite dget_touch; unfold dsum; cbn [map fold_right]; lia|]. split; [intros x _; apply dget_touch|].
    destruct (keys_add d i _ (keys_touch d i)) as [K1 K2]. split; [|exact K2]. intros x. rewrite K1. cbn [In]. intuition.
  - pose proof (leaf_test e _ R) as E. cbn [mark is_leaf] in E. cbn [recursive_count mark]. rewrite E. cbn [bind].
    cbn [represents] in R. destruct R as (R1 & R2 & _ & _ & Rl & Rr). rewrite (py_get_zget _ _ _ R1). cbn [bind].
    apply nodup_node in ND as (N1 & N2 & NDl & NDr & Dj). cbn [height] in Hf.
    destruct (IHl fuel d Rl NDl ltac:(lia)) as (d1 & E1 & A1 & B1 & C1 & D1). rewrite E1. cbn [bind]. rewrite (py_get_zget _ _ _ R2). cbn [bind snd fst].
    destruct (IHr fuel d1 Rr NDr ltac:(lia)) as (d2 & E2 & A2 & B2 & C2 & D2). rewrite E2. cbn [bind snd fst].
    assert (S : dsum d1 (exits r) = dsum d (exits r)).
    { apply dsum_same. intros x Hx. apply B1. intros Hl. apply (Dj x Hl). apply exits_marks, Hx. }
    exists (dset d2 i (dsum d (exits l) + dsum d1 (exits r))). rewrite S. split; [cbn [exits]; rewrite dsum_app; reflexivity|].
    destruct (keys_add d2 i _ (keys_set d2 i (dsum d (exits l) + dsum d (exits r)))) as [K1 K2]. split; [|split; [|split]].
    + intros s Hs. cbn [subtrees] in Hs. rewrite dget_set. destruct Hs as [<-|Hs].
      * cbn [mark exits]. rewrite Z.eqb_refl, dsum_app. reflexivity.
      * apply in_app_or in Hs as [Hs|Hs]; pose proof (subtree_mark _ _ Hs) as Hm.
        -- replace (mark s =? i) with false by (symmetry; apply Z.eqb_neq; intros G; rewrite G in Hm; contradiction). rewrite B2; [apply A1, Hs|]. intros G. exact (Dj _ Hm G).
        -- replace (mark s =? i) with false by (symmetry; apply Z.eqb_neq; intros G; rewrite G in Hm; contradiction). rewrite (A2 s Hs). apply dsum_same.
           intros x Hx. apply B1. intros Hl. apply (Dj x Hl). apply exits_marks. exact (subtree_exits _ _ Hs x Hx).
    + intros x Hx. cbn [marks In] in Hx. rewrite in_app_iff in Hx. rewrite dget_set. replace (x =? i) with false by (symmetry; apply Z.eqb_neq; intros ->; tauto).
      rewrite B2 by tauto. apply B1. tauto.
    + intros x. rewrite K1, C2, C1. cbn [marks In]. rewrite in_app_iff. intuition.
    + auto.
Qed.

Lemma arrivals_ok col (t : tree) : NoDup (marks t) -> dsum (tally col) (exits t) = arrivals col t.
Proof. intros ND. unfold arrivals. apply dsum_occurrences; [apply exits_nodup, ND|]. intros x _. apply dget_tally. Qed.

(** What a drawing with leaves starts from. *)
Lemma counts_ok e (t : tree) col : represents e t -> NoDup (marks t) ->
  exists d, recursive_count (S (length (e_left e))) e (tally col) (mark t) = Ok (arrivals col t, d) /\
    (forall s, In s (subtrees t) -> dget d (mark s) = arrivals col s) /\
    (incl col (exits t) -> forall v, In v (map snd d) <-> In v (map (arrivals col) (subtrees t))) /\ map snd d <> [].
Proof.
  intros R ND. destruct (count_ok e t (S (length (e_left e))) (tally col) R ND) as (d & E & A & B & C & D).
  { pose proof (height_bound e t R). lia. }
  exists d. rewrite <- (arrivals_ok col t ND). split; [exact E|].
  assert (A' : forall s, In s (subtrees t) -> dget d (mark s) = arrivals col s).
  { intros s Hs. rewrite (A s Hs). apply arrivals_ok. exact (subtree_nodup t s ND Hs). }
  split; [exact A'|]. rewrite tally_keys in *. specialize (D (unique_nodup col)). split.
  - intros Hi v. rewrite (values_of d D), in_map_iff. split.
    + intros (k & Hk & ->). apply C in Hk. assert (G : In k (marks t)).
      { destruct Hk as [Hk|Hk]; [|exact Hk]. rewrite unique_in in Hk. apply exits_marks, Hi, Hk. }
      rewrite <- marks_subtrees in G. apply in_map_iff in G as (s & <- & Hs). exists s. split; [symmetry; apply A', Hs|exact Hs].
    + intros (s & <- & Hs). exists (mark s). split; [apply C; right; apply subtree_mark, Hs|]. symmetry. apply A', Hs.
  - intros F. apply map_eq_nil in F. subst d. assert (G : In (mark t) (map fst (@nil (Z * Z)))) by (apply C; right; apply mark_in_marks). exact G.
Qed.
End Tree.

Lemma fold_min l : forall x, (forall y, In y (x :: l) -> fold_left Z.min l x <= y) /\ In (fold_left Z.min l x) (x :: l).
Proof.
  induction l as [|a l IH]; intros x; cbn [fold_left].
  - split; [intros y [<-|[]]; lia|left; auto].
  - destruct (IH (Z.min x a)) as [H1 H2]. split.
    + intros y [<-|[<-|Hy]]; [specialize (H1 (Z.min x a) (or_introl eq_refl)); lia|specialize (H1 (Z.min x a) (or_introl eq_refl)); lia|apply H1; right; exact Hy].
    + destruct H2 as [H2|H2]; [|right; right; exact H2]. rewrite <- H2. destruct (Z.min_spec x a) as [[_ ->]|[_ ->]]; [left|right; left]; auto.
Qed.
Lemma fold_max l : forall x, (forall y, In y (x :: l) -> y <= fold_left Z.max l x) /\ In (fold_left Z.max l x) (x :: l).
Proof.
  induction l as [|a l IH]; intros x; cbn [fold_left].
  - split; [intros y [<-|[]]; lia|left; auto].
  - destruct (IH (Z.max x a)) as [H1 H2]. split.
    + intros y [<-|[<-|Hy]]; [specialize (H1 (Z.max x a) (or_introl eq_refl)); lia|specialize (H1 (Z.max x a) (or_introl eq_refl)); lia|apply H1; right; exact Hy].
    + destruct H2 as [H2|H2]; [|right; right; exact H2]. rewrite <- H2. destruct (Z.max_spec x a) as [[_ ->]|[_ ->]]; [right; left|left]; auto.
Qed.
Lemma extremes_ok l : l <> [] -> exists lo hi, zmin l = Ok lo /\ zmax l = Ok hi /\ extremes l lo hi.
Proof.
  destruct l as [|x l]; [congruence|]. intros _. cbn [zmin zmax]. destruct (fold_min l x) as [A1 A2]. destruct (fold_max l x) as [B1 B2].
  exists (fold_left Z.min l x), (fold_left Z.max l x). split; [reflexivity|]. split; [reflexivity|]. split; [exact A2|]. split; [exact B2|]. intros y Hy. split; auto.
Qed.
Lemma extremes_same l l' lo hi : (forall x, In x l <-> In x l') -> extremes l lo hi -> extremes l' lo hi.
Proof. intros H (A & B & C). split; [apply H, A|]. split; [apply H, B|]. intros x Hx. apply C, H, Hx. Qed.
