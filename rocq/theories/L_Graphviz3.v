(** Proofs about the drawing of trees: the whole export. *)
From Coq Require Import Ascii String List ZArith Bool Lia Permutation Sorted.
From Verif Require Import Base Num Lists M_Text M_Ensemble S_Ensemble S_Loaders L_Ensemble L_Ensemble2 M_Effectiveness L_Effectiveness6 M_Graphviz S_Graphviz L_Graphviz L_Graphviz2.
Import ListNotations.
Local Open Scope Z_scope.

Lemma py_get_named {A} (l : list A) tid k x n : length l = n -> (tid = Z.of_nat k \/ tid = Z.of_nat k - Z.of_nat n) -> nth_error l k = Some x -> py_get l tid = Ok x.
Proof.
  intros Hl Ht Hx. assert (k < n)%nat by (rewrite <- Hl; apply nth_error_Some; congruence). unfold py_get. rewrite Hl.
  replace (if tid <? 0 then tid + Z.of_nat n else tid) with (Z.of_nat k).
  - rewrite zget_nth, Hx. reflexivity.
  - destruct (Z.ltb_spec tid 0); lia.
Qed.
Lemma column_ok {N : num} (ts : list (tree Z N)) tid k (rows : list (list Z)) (col : list Z) : (tid = Z.of_nat k \/ tid = Z.of_nat k - Z.of_nat (length ts)) ->
  Forall2 (fun row j => length row = length ts /\ nth_error row k = Some j) rows col -> mapM (fun row => py_get row tid) rows = Ok col.
Proof.
  intros Ht H. induction H as [|row j rows col [H1 H2] H IH]; [reflexivity|]. cbn [mapM]. rewrite (py_get_named row tid k j _ H1 Ht H2). cbn [bind]. rewrite IH. reflexivity.
Qed.

Section Export.
Context {N : num}.
Notation tree := (tree Z N).

Lemma outputs_in (t : tree) v : In v (outputs t) <-> exists i, In (Leaf i v) (subtrees t).
Proof.
  induction t as [i w|i f thr l IHl r IHr]; cbn [outputs subtrees In].
  - split; [intros [->|[]]; exists i; left; reflexivity|intros [j [H|[]]]; injection H as _ H; auto].
  - rewrite in_app_iff, IHl, IHr. split.
    + intros [[j H]|[j H]]; exists j; right; apply in_or_app; auto.
    + intros [j [H|H]]; [discriminate H|]. apply in_app_or in H as [H|H]; [left|right]; exists j; exact H.
Qed.
Lemma fold_least (l : list N) : forall x, let r := fold_left (fun a b => if nleb a b || negb (nleb a a) then a else b) l x in In r (x :: l) /\
  ((forall a b : N, nleb a b = true \/ nleb b a = true) -> (forall a b c : N, nleb a b = true -> nleb b c = true -> nleb a c = true) -> forall v, In v (x :: l) -> nleb r v = true).
Proof.
  induction l as [|a l IH]; intros x; cbn [fold_left].
  - split; [left; auto|]. intros T _ v [<-|[]]. destruct (T x x); auto.
  - specialize (IH (if nleb x a || negb (nleb x x) then x else a)). cbn zeta in IH. destruct IH as [H1 H2]. split.
    + destruct H1 as [H1|H1]; [|right; right; exact H1]. rewrite <- H1. destruct (nleb x a || negb (nleb x x)); [left|right; left]; auto.
    + intros T Tr v Hv. specialize (H2 T Tr). replace (nleb x x) with true in H2 |- * by (symmetry; destruct (T x x); assumption). cbn [negb] in H2 |- *. rewrite orb_false_r in H2 |- *. destruct Hv as [<-|[<-|Hv]]; [| |apply H2; right; exact Hv].
      * destruct (nleb x a) eqn:E; [apply H2; left; auto|]. apply (Tr _ a); [apply H2; left; auto|]. destruct (T x a) as [G|G]; [congruence|exact G].
      * destruct (nleb x a) eqn:E; [|apply H2; left; auto]. apply (Tr _ x); [apply H2; left; auto|exact E].
Qed.
Lemma fold_greatest (l : list N) : forall x, let r := fold_left (fun a b => if nleb b a || negb (nleb a a) then a else b) l x in In r (x :: l) /\
  ((forall a b : N, nleb a b = true \/ nleb b a = true) -> (forall a b c : N, nleb a b = true -> nleb b c = true -> nleb a c = true) -> forall v, In v (x :: l) -> nleb v r = true).
Proof.
  induction l as [|a l IH]; intros x; cbn [fold_left].
  - split; [left; auto|]. intros T _ v [<-|[]]. destruct (T x x); auto.
  - specialize (IH (if nleb a x || negb (nleb x x) then x else a)). cbn zeta in IH. destruct IH as [H1 H2]. split.
    + destruct H1 as [H1|H1]; [|right; right; exact H1]. rewrite <- H1. destruct (nleb a x || negb (nleb x x)); [left|right; left]; auto.
    + intros T Tr v Hv. specialize (H2 T Tr). replace (nleb x x) with true in H2 |- * by (symmetry; destruct (T x x); assumption). cbn [negb] in H2 |- *. rewrite orb_false_r in H2 |- *. destruct Hv as [<-|[<-|Hv]]; [| |apply H2; right; exact Hv].
      * destruct (nleb a x) eqn:E; [apply H2; left; auto|]. apply (Tr _ a); [|apply H2; left; auto]. destruct (T x a) as [G|G]; [exact G|congruence].
      * destruct (nleb a x) eqn:E; [|apply H2; left; auto]. apply (Tr _ x); [exact E|apply H2; left; auto].
Qed.

Variables (e : ensemble N) (ts : list tree) (ws : list N).
Hypothesis Hlay : laid_out e ts ws.
Variables (tid : Z) (k : nat) (t : tree).
Hypothesis Hid : names_tree ts tid k.
Hypothesis Ht : nth_error ts k = Some t.

Lemma tree_nodup : NoDup (marks t).
Proof. destruct Hlay as [_ [Hc _]]. destruct (consecutive_nth _ _ _ _ Hc Ht) as (_ & Hp & _). apply (Permutation_NoDup (Permutation_sym Hp)), zrange_nodup. Qed.
Lemma tree_rep : represents e t.
Proof. destruct Hlay as [He _]. exact (proj1 (encodes_root e ts ws k t He Ht)). Qed.
Lemma root_ok : py_get (e_root e) tid = Ok (mark t).
Proof.
  destruct Hlay as [(_ & Er & _) _]. rewrite Er. destruct Hid as [_ Hd]. apply (py_get_named _ tid k _ (length ts)); [apply map_length|exact Hd|]. rewrite nth_error_map, Ht. reflexivity.
Qed.
Lemma id_ok : (e_ntrees e - 1 <? tid) = false.
Proof. destruct Hlay as [(En & _) _]. destruct Hid as [H1 H2]. apply Z.ltb_ge. lia. Qed.

Lemma value_bounds_ok : exists lo hi, value_bounds e tid = Ok (ValueBounds lo hi) /\ In lo (outputs t) /\ In hi (outputs t) /\
  ((forall a b : N, nleb a b = true \/ nleb b a = true) -> (forall a b c : N, nleb a b = true -> nleb b c = true -> nleb a c = true) ->
   forall v, In v (outputs t) -> nleb lo v = true /\ nleb v hi = true).
Proof.
  pose proof tree_rep as R. pose proof tree_nodup as ND. unfold value_bounds. rewrite root_ok. cbn [bind]. destruct (C36_lemma e ts ws Hlay) as (_ & En & _). rewrite En. cbn [bind].
  rewrite (py_get_named _ tid k (Z.of_nat (size t)) (length ts)); [|apply map_length|apply Hid|rewrite nth_error_map, Ht; reflexivity]. cbn [bind].
  destruct Hlay as [_ [Hc _]]. destruct (consecutive_nth _ _ _ _ Hc Ht) as (_ & Hp & _).
  set (g := fun i => match zget (e_left e) i, zget (e_value e) i with Some (-1), Some v => [v] | _, _ => [] end).
  assert (G : forall s, In s (subtrees t) -> (do leaf <- is_leaf_node e (mark s); if leaf then do v <- py_get (e_value e) (mark s); Ok [v] else Ok []) = Ok (g (mark s)) /\
     g (mark s) = match s with Leaf _ v => [v] | Node _ _ _ _ _ => [] end).
  { intros s Hs. pose proof (subtree_rep e t s R Hs) as Rs. rewrite (leaf_test e s Rs). cbn [bind]. unfold g. destruct s as [i v|i f thr l r]; cbn [represents mark is_leaf] in *.
    - destruct Rs as (A & _ & _ & B). rewrite (py_get_zget _ _ _ B), A, B. auto.
    - destruct Rs as (A & _ & _ & B & Rl & _). rewrite A, B. apply rep_range in Rl. destruct (mark l) as [|p|p] eqn:M; auto. destruct p; auto. lia. }
  assert (I : forall i, In i (zrange (mark t) (mark t + Z.of_nat (size t))) -> exists s, In s (subtrees t) /\ mark s = i).
  { intros i Hi. apply (Permutation_in _ (Permutation_sym Hp)) in Hi. rewrite <- marks_subtrees in Hi. apply in_map_iff in Hi as (s & A & B). exists s. auto. }
  rewrite (mapM_ok _ g).
  2:{ intros i Hi. destruct (I i Hi) as (s & A & <-). apply G, A. }
  cbn [bind]. set (vs := concat (map g _)).
  assert (V : forall v, In v vs <-> In v (outputs t)).
  { intros v. unfold vs. rewrite outputs_in, in_concat. split.
    - intros (x & A & B). apply in_map_iff in A as (i & <- & A). destruct (I i A) as (s & S1 & <-). destruct (G s S1) as [_ E]. rewrite E in B. destruct s as [j w|]; [|destruct B]. destruct B as [->|[]]. exists j. exact S1.
    - intros (i & A). exists [v]. split; [|left; auto]. apply in_map_iff. exists i. destruct (G _ A) as [_ E]. cbn [mark] in E. split; [exact E|]. apply (Permutation_in _ Hp). rewrite <- marks_subtrees. apply (in_map mark) in A. exact A. }
  assert (NE : vs <> []).
  { assert (X : exists v, In v (outputs t)) by (clear; induction t as [i v|i f thr l [v Hv] r _]; [exists v; left; auto|exists v; cbn [outputs]; apply in_or_app; auto]).
    destruct X as [v Hv]. apply V in Hv. intros F. rewrite F in Hv. exact Hv. }
  destruct vs as [|x vs]; [congruence|]. cbn [nmin_list nmax_list bind].
  destruct (fold_least vs x) as [L1 L2]. destruct (fold_greatest vs x) as [G1 G2]. eexists. eexists. split; [reflexivity|]. split; [apply V, L1|]. split; [apply V, G1|].
  intros T Tr v Hv. apply V in Hv. split; [apply L2; auto|apply G2; auto].
Qed.

(** Counts and bounds. *)
Definition prepare (o : options) : res (list (Z * Z) * bounds (N:=N)) :=
  match o_leaves o with
  | Some rows =>
      do col <- mapM (fun row => py_get row tid) rows;
      do root <- py_get (e_root e) tid;
      do c <- recursive_count (S (length (e_left e))) e (tally col) root;
      match o_label o with
      | LabelAll => do lo <- zmin (map snd (snd c)); do hi <- zmax (map snd (snd c)); Ok (snd c, CountBounds lo hi)
      | LabelLeaves => do lo <- zmin (map snd (tally col)); do hi <- zmax (map snd (tally col)); Ok (snd c, CountBounds lo hi)
      | LabelOther => Err ValueError
      end
  | None => do b <- value_bounds e tid; Ok ([], b)
  end.

Lemma leaf_arrivals col i v : arrivals (N:=N) col (Leaf i v) = occurrences col i.
Proof. unfold arrivals, occurrences. do 2 f_equal. cbn [exits]. apply filter_ext. intros j. cbn [existsb]. rewrite orb_false_r. apply Z.eqb_sym. Qed.
Lemma exits_in i : In i (exits t) <-> exists v, In (Leaf i v) (subtrees t).
Proof.
  clear. induction t as [j w|j f thr l IHl r IHr]; cbn [exits subtrees In].
  - split; [intros [->|[]]; exists w; left; reflexivity|intros [v [H|[]]]; injection H as H _; auto].
  - rewrite in_app_iff, IHl, IHr. split.
    + intros [[v H]|[v H]]; exists v; right; apply in_or_app; auto.
    + intros [v [H|H]]; [discriminate H|]. apply in_app_or in H as [H|H]; [left|right]; exists v; exact H.
Qed.
Lemma tally_values col : incl col (exits t) ->
  forall v, In v (map snd (tally col)) <-> In v (map (arrivals col) (filter (fun s => is_leaf s && (0 <? arrivals col s)) (subtrees t))).
Proof.
  intros Hi v. unfold tally. rewrite map_map. cbn [snd]. rewrite !in_map_iff. split.
  - intros (x & <- & Hx). rewrite unique_in in Hx. pose proof (Hi x Hx) as Ex. apply exits_in in Ex as (w & Ew). exists (Leaf x w). split; [apply leaf_arrivals|]. apply filter_In. split; [exact Ew|].
    cbn [is_leaf andb]. rewrite leaf_arrivals. unfold occurrences. apply Z.ltb_lt. assert (G : In x (filter (Z.eqb x) col)) by (apply filter_In; split; [exact Hx|apply Z.eqb_refl]).
    destruct (filter (Z.eqb x) col); [destruct G|]. cbn [length]. lia.
  - intros (s & <- & Hs). apply filter_In in Hs as [H1 H2]. destruct s as [x w|]; [|discriminate H2]. cbn [is_leaf andb] in H2. rewrite leaf_arrivals in *. exists x. split; [reflexivity|]. rewrite unique_in.
    unfold occurrences in H2. destruct (filter (Z.eqb x) col) as [|y l] eqn:F; [discriminate H2|]. assert (G : In y (filter (Z.eqb x) col)) by (rewrite F; left; auto).
    apply filter_In in G as [G1 G2]. apply Z.eqb_eq in G2. subst. exact G1.
Qed.

Lemma prepare_ok o col : options_fit o -> leaf_column ts k o col ->
  exists counts b, prepare o = Ok (counts, b) /\ kind_ok o b /\ bounds_fit o col t b /\
    (forall s, In s (subtrees t) -> o_leaves o <> None -> dget counts (mark s) = arrivals col s).
Proof.
  intros [_ Ho] Hc. unfold prepare, leaf_column, kind_ok, bounds_fit in *. destruct (o_leaves o) as [rows|].
  - rewrite (column_ok ts tid k rows col (proj2 Hid) Hc), root_ok. cbn [bind].
    destruct (counts_ok e t col tree_rep tree_nodup) as (d & E & A & B & C). rewrite E. cbn [bind snd].
    destruct (o_label o).
    + destruct (extremes_ok _ C) as (lo & hi & E1 & E2 & X). rewrite E1, E2. cbn [bind]. exists d, (CountBounds lo hi). split; [reflexivity|]. split; [exact I|]. split; [|auto].
      intros Hi. exact (extremes_same _ _ _ _ (B Hi) X).
    + assert (NE : map snd (tally col) <> []).
      { destruct Hc as [|row j rows col _ _]; [destruct Ho|]. intros F. apply map_eq_nil in F. unfold tally in F. apply map_eq_nil in F.
        assert (G : In j (unique (j :: col))) by (apply unique_in; left; auto). rewrite F in G. exact G. }
      destruct (extremes_ok _ NE) as (lo & hi & E1 & E2 & X). rewrite E1, E2. cbn [bind]. exists d, (CountBounds lo hi). split; [reflexivity|]. split; [exact I|]. split; [|auto].
      intros Hi. exact (extremes_same _ _ _ _ (tally_values col Hi) X).
    + destruct rows; destruct Ho.
  - destruct value_bounds_ok as (lo & hi & E & A & B & C). rewrite E. cbn [bind]. exists [], (ValueBounds lo hi). split; [reflexivity|]. split; [exact I|]. split; [auto|]. intros s _ F. congruence.
Qed.

Lemma names_ok o : names_fit e o t -> match o_names o with
          | None => Ok tt
          | Some names => do m <- zmax (e_feature e); if m + 1 <? Z.of_nat (length names) then Err ValueError else Ok tt
          end = Ok tt.
Proof.
  unfold names_fit. destruct (o_names o) as [names|]; [|reflexivity]. intros [(f & H1 & H2) _].
  destruct (extremes_ok (e_feature e)) as (lo & hi & _ & E & (_ & _ & X)); [intros F; rewrite F in H1; exact H1|]. rewrite E. cbn [bind].
  replace (hi + 1 <? Z.of_nat (length names)) with false; [reflexivity|]. symmetry. apply Z.ltb_ge. specialize (X f H1). lia.
Qed.
Lemma visible_sub m : forall (s : tree) depth x, In x (visible m depth s) -> In x (subtrees s).
Proof.
  clear. induction s as [i v|i f thr l IHl r IHr]; intros depth x; cbn [visible subtrees]; destruct (within m depth); cbn [In]; [auto|tauto| |tauto].
  intros [H|H]; [auto|]. right. apply in_or_app. apply in_app_or in H as [H|H]; [left; eapply IHl|right; eapply IHr]; exact H.
Qed.

Section Go.
Variables (o : options) (col : list Z).
Hypotheses (Ho : options_fit o) (Hc : leaf_column ts k o col) (Hn : names_fit e o t).

Lemma export_unfold counts b : prepare o = Ok (counts, b) ->
  export_graphviz e tid o = do x <- recurse e o tid counts b (S (length (e_left e))) (mark t) None 0; Ok (fst x ++ if o_parallel o then rank_items (snd x) else []).
Proof.
  intros P. unfold export_graphviz. replace (o_precision o <? 0) with false by (symmetry; apply Z.ltb_ge, Ho). rewrite (names_ok o Hn). cbn [bind].
  rewrite id_ok. fold (prepare o). rewrite P. cbn [bind fst snd]. rewrite root_ok. reflexivity.
Qed.
Lemma describable_ok counts b : kind_ok o b -> (forall s, In s (subtrees t) -> o_leaves o <> None -> dget counts (mark s) = arrivals col s) ->
  describable e o counts b col 0 t.
Proof.
  intros K C s Hs. pose proof (visible_sub _ _ _ _ Hs) as S. apply describe_ok; [exact K|exact (subtree_rep e t s tree_rep S)| |auto].
  unfold named. unfold names_fit in Hn. destruct (o_names o) as [names|]; [|exact I]. destruct s as [|i f thr l r]; [exact I|]. destruct Hn as [_ H]. exact (H _ i f thr l r Hs eq_refl).
Qed.
Lemma top_hangs : hangs e (mark t) 0 None t.
Proof. split; reflexivity. Qed.

Theorem export_ok : (o_np_mapping o = true \/ fully_drawn o t) ->
  exists items b, export_graphviz e tid o = Ok items /\ bounds_fit o col t b /\
    boxes items = map (fun s => (mark s, picture o col b s)) (visible (o_max_depth o) 0 t) /\
    dots items = map mark (cut (o_max_depth o) 0 t) /\ arrows items = links (o_max_depth o) 0 t /\
    if o_parallel o then ranks_fit (o_max_depth o) t (ranks items) else ranks items = [].
Proof.
  intros M. destruct (prepare_ok o col Ho Hc) as (counts & b & P & K & B & C). rewrite (export_unfold _ _ P).
  pose proof (recurse_ok e o tid (mark t) counts b col root_ok t (S (length (e_left e))) 0 None) as R.
  cbn [option_map] in R. rewrite R; [|pose proof (height_bound e t tree_rep); lia|exact tree_rep|exact tree_nodup|exact top_hangs|exact (describable_ok _ _ K C)|exact M].
  cbn [bind fst snd]. exists (draw o b col 0 None t ++ if o_parallel o then rank_items (lines o 0 t) else []), b. split; [reflexivity|]. split; [exact B|].
  destruct (rank_items_ok o t) as (R1 & R2 & R3 & R4).
  rewrite boxes_app, dots_app, arrows_app, ranks_app, draw_boxes, draw_dots, draw_ranks, draw_arrows by lia.
  destruct (o_parallel o).
  - rewrite R2, R3, R4, !app_nil_r. auto.
  - cbn. rewrite !app_nil_r. auto.
Qed.
Theorem export_type_error : o_np_mapping o = false -> ~ fully_drawn o t -> export_graphviz e tid o = Err TypeError.
Proof.
  intros M X. destruct (prepare_ok o col Ho Hc) as (counts & b & P & K & B & C). rewrite (export_unfold _ _ P).
  pose proof (recurse_error e o tid (mark t) counts b col root_ok t (S (length (e_left e))) 0 None) as R.
  cbn [option_map] in R. rewrite R; [reflexivity|pose proof (height_bound e t tree_rep); lia|exact tree_rep|exact tree_nodup|exact top_hangs|exact (describable_ok _ _ K C)|exact M|exact X].
Qed.
End Go.

(** Refused arguments. *)
Theorem short_names o names : o_names o = Some names -> (exists i f thr l r, In (Node i f thr l r) (visible (o_max_depth o) 0 t) /\ Z.of_nat (length names) <= f) ->
  exists x, export_graphviz e tid o = Err x.
Proof.
  intros Hn (i & f & thr & l & r & H1 & H2). destruct (export_graphviz e tid o) as [items|x] eqn:E; [|exists x; reflexivity]. exfalso. unfold export_graphviz in E.
  destruct (o_precision o <? 0); [discriminate E|]. match type of E with bind ?a _ = _ => destruct a as [u|]; [|discriminate E] end. cbn [bind] in E. rewrite id_ok in E.
  match type of E with bind ?a _ = _ => destruct a as [[counts b]|]; [|discriminate E] end. cbn [bind fst snd] in E. rewrite root_ok in E. cbn [bind] in E.
  destruct (recurse e o tid counts b (S (length (e_left e))) (mark t) None 0) as [x|] eqn:R; [|discriminate E].
  destruct (recurse_described e o tid counts b t _ _ _ _ tree_rep R _ H1) as [bx D].
  pose proof (subtree_rep e t _ tree_rep (visible_sub _ _ _ _ H1)) as Rs. unfold describe in D. rewrite (leaf_test e _ Rs) in D. cbn [bind is_leaf] in D.
  cbn [represents mark] in *. destruct Rs as (_ & _ & F & V & _). rewrite (py_get_zget _ _ _ V) in D. cbn [bind] in D. rewrite (py_get_zget _ _ _ F) in D. cbn [bind] in D. rewrite Hn in D.
  unfold py_get, zget in D. replace (f <? 0) with false in D by (symmetry; apply Z.ltb_ge; lia). replace (f <? 0) with false in D by (symmetry; apply Z.ltb_ge; lia).
  rewrite (proj2 (nth_error_None names (Z.to_nat f))) in D by lia. discriminate D.
Qed.
End Export.

Section Refused.
Context {N : num}.
Lemma bad_precision (e : ensemble N) tid o : o_precision o < 0 -> export_graphviz e tid o = Err ValueError.
Proof. intros H. unfold export_graphviz. replace (o_precision o <? 0) with true by (symmetry; apply Z.ltb_lt, H). reflexivity. Qed.
Lemma bad_names (e : ensemble N) tid o names : 0 <= o_precision o -> o_names o = Some names -> (forall f, In f (e_feature e) -> f + 1 < Z.of_nat (length names)) -> export_graphviz e tid o = Err ValueError.
Proof.
  intros H Hn Hf. unfold export_graphviz. replace (o_precision o <? 0) with false by (symmetry; apply Z.ltb_ge, H). rewrite Hn.
  destruct (e_feature e) as [|x l] eqn:E; [reflexivity|]. destruct (extremes_ok (x :: l)) as (lo & hi & _ & Em & (_ & X & _)); [discriminate|]. rewrite Em. cbn [bind].
  replace (hi + 1 <? Z.of_nat (length names)) with true; [reflexivity|]. symmetry. apply Z.ltb_lt. apply Hf. exact X.
Qed.
Lemma bad_tree (e : ensemble N) (ts : list (tree Z N)) ws tid o : encodes e ts ws -> 0 <= o_precision o -> o_names o = None -> o_leaves o = None ->
  (Z.of_nat (length ts) <= tid -> export_graphviz e tid o = Err ValueError) /\ (tid < - Z.of_nat (length ts) -> export_graphviz e tid o = Err IndexError).
Proof.
  intros (En & Er & _) H Hn Hl. unfold export_graphviz. replace (o_precision o <? 0) with false by (symmetry; apply Z.ltb_ge, H). rewrite Hn, Hl, En. cbn [bind]. split; intros Ht.
  - replace (Z.of_nat (length ts) - 1 <? tid) with true by (symmetry; apply Z.ltb_lt; lia). reflexivity.
  - replace (Z.of_nat (length ts) - 1 <? tid) with false by (symmetry; apply Z.ltb_ge; lia). unfold value_bounds.
    replace (py_get (e_root e) tid) with (@Err Z IndexError); [reflexivity|]. unfold py_get, zget. rewrite Er, map_length.
    replace (tid <? 0) with true by (symmetry; apply Z.ltb_lt; lia). replace (tid + Z.of_nat (length ts) <? 0) with true by (symmetry; apply Z.ltb_lt; lia). reflexivity.
Qed.
Lemma bad_label (e : ensemble N) (ts : list (tree Z N)) ws tid k t o col : laid_out e ts ws -> names_tree ts tid k -> nth_error ts k = Some t -> 0 <= o_precision o -> o_names o = None ->
  o_leaves o <> None -> leaf_column ts k o col -> (o_label o = LabelOther \/ (o_label o = LabelLeaves /\ o_leaves o = Some [])) -> export_graphviz e tid o = Err ValueError.
Proof.
  intros Hlay Hid Ht Hp Hn Hl Hc Hb. unfold export_graphviz. replace (o_precision o <? 0) with false by (symmetry; apply Z.ltb_ge, Hp). rewrite Hn. cbn [bind]. rewrite (id_ok e ts ws Hlay tid k Hid).
  unfold leaf_column in Hc. destruct (o_leaves o) as [rows|] eqn:EL; [|congruence]. rewrite (column_ok ts tid k rows col (proj2 Hid) Hc). cbn [bind]. rewrite (root_ok e ts ws Hlay tid k t Hid Ht). cbn [bind].
  destruct (counts_ok e t col (tree_rep e ts ws Hlay k t Ht) (tree_nodup e ts ws Hlay k t Ht)) as (d & E & _). rewrite E. cbn [bind].
  destruct Hb as [->|[-> Hr]]; [reflexivity|]. injection Hr as ->. inversion Hc. reflexivity.
Qed.

(** ** Counts of a scored data set *)
Lemma exit_in (row : list N) (t : tree Z N) : In (fst (exit_leaf row t)) (exits t).
Proof. induction t as [i v|i f thr l IHl r IHr]; cbn [exit_leaf exits]; [left; reflexivity|]. apply in_or_app. destruct (nleb _ _); auto. Qed.
Lemma path_marks (row : list N) (t : tree Z N) x : In x (path row t) -> In x (marks t).
Proof. induction t as [i v|i f thr l IHl r IHr]; cbn [path marks In]; [auto|]. intros [H|H]; [auto|]. right. apply in_or_app. destruct (nleb _ _); auto. Qed.
Lemma visits_exit (row : list N) (t : tree Z N) : NoDup (marks t) -> forall s, In s (subtrees t) -> (In (fst (exit_leaf row t)) (exits s) <-> In (mark s) (path row t)).
Proof.
  induction t as [i v|i f thr l IHl r IHr]; intros ND s Hs.
  - destruct Hs as [<-|[]]. cbn. tauto.
  - pose proof ND as ND'. apply nodup_node in ND' as (N1 & N2 & NDl & NDr & Dj). cbn [subtrees In] in Hs. destruct Hs as [<-|Hs].
    + split; intros _; [left; reflexivity|]. apply exit_in.
    + cbn [exit_leaf path]. assert (Hm : In (mark s) (marks l) \/ In (mark s) (marks r)) by (apply in_app_or in Hs as [H|H]; apply subtree_mark in H; auto).
      assert (Q : forall q : list Z, In (mark s) (i :: q) <-> In (mark s) q).
      { intros q. cbn [In]. split; [|auto]. intros [G|G]; [|exact G]. subst i. tauto. }
      rewrite Q. apply in_app_or in Hs. destruct (nleb _ _).
      * destruct Hs as [Hs|Hs]; [apply IHl; auto|]. split; intros G; exfalso.
        -- apply (subtree_exits _ _ Hs) in G. apply (Dj (fst (exit_leaf row l))); [apply exits_marks, exit_in|apply exits_marks, G].
        -- apply path_marks in G. apply (Dj _ G). apply subtree_mark, Hs.
      * destruct Hs as [Hs|Hs]; [|apply IHr; auto]. split; intros G; exfalso.
        -- apply (subtree_exits _ _ Hs) in G. apply (Dj (fst (exit_leaf row r))); [apply exits_marks, G|apply exits_marks, exit_in].
        -- apply path_marks in G. refine (Dj _ _ G). apply subtree_mark, Hs.
Qed.
Lemma scored_column (e : ensemble N) (ts : list (tree Z N)) ws X r k t o : laid_out e ts ws -> (forall row, In row X -> covers row ts) -> detailed_scoring e X = Ok r -> nth_error ts k = Some t -> o_leaves o = Some (fst r) ->
  exists col, leaf_column ts k o col /\ incl col (exits t) /\ length col = length X /\
    forall s, In s (subtrees t) -> arrivals col s = Z.of_nat (length (filter (fun row => existsb (Z.eqb (mark s)) (path row t)) X)).
Proof.
  intros Hlay Hc Hr Ht Ho. rewrite (C32_lemma e ts ws X (proj1 Hlay) Hc) in Hr. injection Hr as <-. cbn [fst] in Ho.
  exists (map (fun row => fst (exit_leaf row t)) X). split; [|split; [|split]].
  - unfold leaf_column. rewrite Ho. clear Ho Hc. induction X as [|row X IH]; cbn [map]; constructor; [|exact IH]. split; [apply map_length|]. rewrite nth_error_map, Ht. reflexivity.
  - intros x Hx. apply in_map_iff in Hx as (row & <- & _). apply exit_in.
  - apply map_length.
  - intros s Hs. unfold arrivals. f_equal. pose proof (tree_nodup e ts ws Hlay k t Ht) as ND. clear Ho Hc. induction X as [|row X IH]; [reflexivity|]. cbn [map filter].
    replace (existsb (Z.eqb (mark s)) (path row t)) with (existsb (Z.eqb (fst (exit_leaf row t))) (exits s)).
    + destruct (existsb _ _); cbn [length]; rewrite IH; reflexivity.
    + apply eq_true_iff_eq. rewrite !existsb_exists. split; intros (x & H1 & H2); apply Z.eqb_eq in H2; subst x.
      * exists (mark s). split; [apply (visits_exit row t ND s Hs), H1|apply Z.eqb_refl].
      * exists (fst (exit_leaf row t)). split; [apply (visits_exit row t ND s Hs), H1|apply Z.eqb_refl].
Qed.
Lemma root_arrivals (t : tree Z N) col : incl col (exits t) -> arrivals col t = Z.of_nat (length col).
Proof.
  intros H. unfold arrivals. do 2 f_equal. induction col as [|j col IH]; [reflexivity|]. cbn [filter].
  replace (existsb (Z.eqb j) (exits t)) with true; [f_equal; apply IH; intros x Hx; apply H; right; exact Hx|].
  symmetry. apply existsb_exists. exists j. split; [apply H; left; auto|apply Z.eqb_refl].
Qed.
(** The percentages of 'all' are relative to the number of instances. *)
Lemma all_bounds (t : tree Z N) o col rows lo hi : o_leaves o = Some rows -> o_label o = LabelAll -> incl col (exits t) -> bounds_fit o col t (CountBounds lo hi) -> hi = Z.of_nat (length col).
Proof.
  intros Hl Ho Hi B. unfold bounds_fit in B. rewrite Hl, Ho in B. destruct (B Hi) as (_ & B1 & B2).
  assert (G : In (arrivals col t) (map (arrivals col) (subtrees t))) by (apply in_map, root_subtree). apply B2 in G. rewrite (root_arrivals t col Hi) in G.
  apply in_map_iff in B1 as (s & <- & _). assert (arrivals col s <= Z.of_nat (length col)); [|lia]. unfold arrivals. apply inj_le. clear. induction col as [|j col IH]; cbn [filter]; [lia|]. destruct (existsb _ _); cbn [length]; lia.
Qed.
End Refused.
