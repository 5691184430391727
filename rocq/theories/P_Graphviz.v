(** C62: drawings of trees (visualization/topological.py, export_graphviz). *)
From Coq Require Import Ascii String List ZArith Bool Lia QArith.
From Verif Require Import Base Num M_Text M_Ensemble S_Ensemble S_Loaders M_Graphviz S_Graphviz L_Graphviz L_Graphviz2 L_Graphviz3.
Import ListNotations.
Local Open Scope Z_scope.

(** The drawing shows exactly the nodes up to max_depth, with the number of instances that arrive
    below each of them, one arrow per father and son, and the ranks. *)
Theorem C62_drawing : forall (N : num) (e : ensemble N) ts ws, laid_out e ts ws -> forall tid k t, names_tree ts tid k -> nth_error ts k = Some t ->
  forall o col, options_fit o -> leaf_column ts k o col -> names_fit e o t -> (o_np_mapping o = true \/ fully_drawn o t) ->
  exists items b, export_graphviz e tid o = Ok items /\ bounds_fit o col t b /\
    boxes items = map (fun s => (mark s, picture o col b s)) (visible (o_max_depth o) 0 t) /\
    dots items = map mark (cut (o_max_depth o) 0 t) /\ arrows items = links (o_max_depth o) 0 t /\
    if o_parallel o then ranks_fit (o_max_depth o) t (ranks items) else ranks items = [].
Proof. intros N e ts ws Hl tid k t Hi Ht o col. exact (@export_ok N e ts ws Hl tid k t Hi Ht o col). Qed.
Print Assumptions C62_drawing.
(** If NumPy integers do not pass for mappings, a node that is cut off is a TypeError. *)
Theorem C62_cut_off_type_error : forall (N : num) (e : ensemble N) ts ws, laid_out e ts ws -> forall tid k t, names_tree ts tid k -> nth_error ts k = Some t ->
  forall o col, options_fit o -> leaf_column ts k o col -> names_fit e o t -> o_np_mapping o = false ->
  (export_graphviz e tid o = Err TypeError <-> exists m, o_max_depth o = Some m /\ m < Z.of_nat (height t)).
Proof.
  intros N e ts ws Hl tid k t Hi Ht o col Ho Hc Hn M. split.
  - intros E. destruct (o_max_depth o) as [m|] eqn:D.
    + exists m. split; [reflexivity|]. destruct (Z.lt_ge_cases m (Z.of_nat (height t))) as [G|G]; [exact G|]. exfalso.
      destruct (@export_ok N e ts ws Hl tid k t Hi Ht o col Ho Hc Hn) as (items & b & F & _); [right; unfold fully_drawn; rewrite D; exact G|congruence].
    + exfalso. destruct (@export_ok N e ts ws Hl tid k t Hi Ht o col Ho Hc Hn) as (items & b & F & _); [right; unfold fully_drawn; rewrite D; exact I|congruence].
  - intros (m & D & G). apply (@export_type_error N e ts ws Hl tid k t Hi Ht o col Ho Hc Hn M). unfold fully_drawn. rewrite D. lia.
Qed.
Print Assumptions C62_cut_off_type_error.
(** With the leaves of a scored data set the counts are the numbers of rows that pass the nodes: all
    of them at the root, and percentages of 'all' are relative to the number of rows. *)
Theorem C62_counts_are_visits : forall (N : num) (e : ensemble N) ts ws X r k t o, laid_out e ts ws -> (forall row, In row X -> covers row ts) ->
  detailed_scoring e X = Ok r -> nth_error ts k = Some t -> o_leaves o = Some (fst r) ->
  exists col, leaf_column ts k o col /\ incl col (exits t) /\
    (forall s, In s (subtrees t) -> arrivals col s = Z.of_nat (length (filter (fun row => existsb (Z.eqb (mark s)) (path row t)) X))) /\
    arrivals col t = Z.of_nat (length X) /\
    (o_label o = LabelAll -> forall lo hi, bounds_fit o col t (CountBounds lo hi) -> hi = Z.of_nat (length X)).
Proof.
  intros N e ts ws X r k t o Hl Hc Hr Ht Ho. destruct (@scored_column N e ts ws X r k t o Hl Hc Hr Ht Ho) as (col & A & B & C & D). exists col. split; [exact A|]. split; [exact B|]. split; [exact D|].
  split; [rewrite (root_arrivals t col B), C; reflexivity|]. intros L lo hi F. rewrite (all_bounds t o col _ lo hi Ho L B F), C. reflexivity.
Qed.
Print Assumptions C62_counts_are_visits.
Theorem C62_refused : forall (N : num) (e : ensemble N) ts ws, laid_out e ts ws -> forall tid o,
  (o_precision o < 0 -> export_graphviz e tid o = Err ValueError) /\
  (forall names, 0 <= o_precision o -> o_names o = Some names -> (forall f, In f (e_feature e) -> f + 1 < Z.of_nat (length names)) -> export_graphviz e tid o = Err ValueError) /\
  (forall names k t, names_tree ts tid k -> nth_error ts k = Some t -> o_names o = Some names ->
     (exists i f thr l r, In (Node i f thr l r) (visible (o_max_depth o) 0 t) /\ Z.of_nat (length names) <= f) -> exists x, export_graphviz e tid o = Err x) /\
  (0 <= o_precision o -> o_names o = None -> o_leaves o = None -> Z.of_nat (length ts) <= tid -> export_graphviz e tid o = Err ValueError) /\
  (0 <= o_precision o -> o_names o = None -> o_leaves o = None -> tid < - Z.of_nat (length ts) -> export_graphviz e tid o = Err IndexError) /\
  (forall k t col, names_tree ts tid k -> nth_error ts k = Some t -> 0 <= o_precision o -> o_names o = None -> o_leaves o <> None -> leaf_column ts k o col ->
     (o_label o = LabelOther \/ (o_label o = LabelLeaves /\ o_leaves o = Some [])) -> export_graphviz e tid o = Err ValueError).
Proof.
  intros N e ts ws Hl tid o. split; [apply bad_precision|]. split; [intros names; apply bad_names|]. split; [intros names k t Hi Ht Hn; exact (@short_names N e ts ws Hl tid k t Hi Ht o names Hn)|].
  split; [intros A B C; apply (bad_tree e ts ws tid o (proj1 Hl) A B C)|]. split; [intros A B C; apply (bad_tree e ts ws tid o (proj1 Hl) A B C)|].
  intros k t col Hi Ht. exact (@bad_label N e ts ws tid k t o col Hl Hi Ht).
Qed.
Print Assumptions C62_refused.

(** Two trees; the second one is drawn. *)
Definition toy : ensemble QN := mkEns (N:=QN) 2 6 [0; 1] [1%Q; 1%Q] [-1; 2; -1; 4; -1; -1] [-1; 3; -1; 5; -1; -1] [7%Q; (1#2)%Q; 1%Q; (5#2)%Q; 2%Q; 3%Q] [-1; 0; -1; 1; -1; -1].
Definition toy_tree : tree Z QN := Node 1 0 (1#2)%Q (Leaf 2 1%Q) (Node 3 1 (5#2)%Q (Leaf 4 2%Q) (Leaf 5 3%Q)).
Definition ask (m : option Z) (lab : labelling) (parallel proportion mapping : bool) : options :=
  mkOptions m (Some [[0; 5]; [0; 2]; [0; 5]; [0; 2]; [0; 2]]) lab true (Some [lit "bm25"; lit "age"]) false parallel true proportion 3 mapping.
Example toy_laid_out : laid_out toy [Leaf 0 7%Q; toy_tree] [1%Q; 1%Q].
Proof.
  split; [|cbn; repeat split; try reflexivity; try constructor].
  - split; [reflexivity|]. split; [reflexivity|]. split; [reflexivity|]. split; [reflexivity|]. repeat constructor.
Qed.
(** The same statements with the numbers as rationals. *)
Inductive shown : Type :=
| SBox (id : Z) (number : option Z) (count : option (Z * option Z)) (test : option (text + Z)) (value : Q) (colour : option (Z * Z * Z))
| SDots (id : Z) | SArrow (parent child : Z) (head : option bool) | SRank (key : option Z) (ids : list Z).
Definition show_item (x : item QN) : shown :=
  match x with
  | Box i b => SBox i (b_id b) (b_count b) (match b_body b with Test f _ => Some f | Output _ => None end)
                      (match b_body b with Test _ v => v | Output v => v end) (match b_fill b with ByCount v lo hi => Some (v, lo, hi) | _ => None end)
  | Dots i _ => SDots i
  | Arrow p c h => SArrow p c h
  | Rank k l => SRank k l
  end.
Definition show_items (r : res (list (item QN))) : res (list shown) := match r with Ok l => Ok (map show_item l) | Err x => Err x end.
Example C62_example : show_items (export_graphviz toy 1 (ask (Some 1) LabelAll true true true)) =
  Ok [SBox 1 (Some 1) (Some (5, Some 5)) (Some (inl (lit "bm25"))) (1#2)%Q (Some (5, 0, 5));
      SBox 2 (Some 2) (Some (3, Some 5)) None 1%Q (Some (3, 0, 5)); SArrow 1 2 (Some true);
      SBox 3 (Some 3) (Some (2, Some 5)) (Some (inl (lit "age"))) (5#2)%Q (Some (2, 0, 5)); SArrow 1 3 (Some false);
      SDots 4; SArrow 3 4 None; SDots 5; SArrow 3 5 None;
      SRank (Some 0) [1]; SRank (Some 1) [3]; SRank None [2; 4; 5]] /\
  show_items (export_graphviz toy 1 (ask (Some 1) LabelAll true true false)) = Err TypeError /\
  is_ok (export_graphviz toy 1 (ask (Some 2) LabelAll true true false)) = true /\
  show_items (export_graphviz toy (-1) (ask (Some 2) LabelAll true true true)) = show_items (export_graphviz toy 1 (ask (Some 2) LabelAll true true true)).
Proof. split; [vm_compute; reflexivity|]. split; [vm_compute; reflexivity|]. split; vm_compute; reflexivity. Qed.
Example C62_hypotheses : names_tree (N:=QN) [Leaf 0 7%Q; toy_tree] (-1) 1 /\ options_fit (ask (Some 1) LabelLeaves true true false) /\
  leaf_column (N:=QN) [Leaf 0 7%Q; toy_tree] 1 (ask (Some 1) LabelLeaves true true false) [5; 2; 5; 2; 2] /\ names_fit toy (ask (Some 1) LabelLeaves true true false) toy_tree.
Proof.
  split; [split; [cbn; lia|right; reflexivity]|]. split; [split; [cbn; lia|exact I]|]. split; [unfold leaf_column; cbn; repeat constructor|].
  split; [exists 1; split; [cbn; tauto|cbn; lia]|]. intros s i f thr l r H E. subst s. cbn in H. destruct H as [H|[H|[H|[]]]]; try discriminate H; injection H as _ <- _ _ _; cbn; lia.
Qed.
(** With label='leaves' the percentages are relative to the most visited leaf: they do not add up to
    100, and the leaf reached by 3 rows out of 5 is said to have 100 per cent. *)
Theorem C62_proportion_of_leaves_refuted : exists items b, export_graphviz toy 1 (ask None LabelLeaves false true true) = Ok items /\
  In (2, b) (boxes items) /\ b_count b = Some (3, Some 3) /\ 3 < Z.of_nat (length [5; 2; 5; 2; 2]).
Proof.
  assert (H : match export_graphviz toy 1 (ask None LabelLeaves false true true) with
              | Ok items => match nth_error (boxes items) 1 with Some (i, b) => i = 2 /\ b_count b = Some (3, Some 3) | None => False end
              | Err _ => False
              end) by (vm_compute; split; reflexivity).
  destruct (export_graphviz toy 1 (ask None LabelLeaves false true true)) as [items|x]; [|contradiction].
  destruct (nth_error (boxes items) 1) as [[i b]|] eqn:E; [|contradiction]. destruct H as [-> H].
  exists items, b. split; [reflexivity|]. split; [apply (nth_error_In _ _ E)|]. split; [exact H|]. cbn. lia.
Qed.
Print Assumptions C62_proportion_of_leaves_refuted.
(** Depths are compared as strings, so the lines of depths 10 and up come before the one of depth 2. *)
Example C62_rank_order : map (fun x => match x with Rank k _ => k | _ => None end) (rank_items (N:=QN) [(Some 2, 7); (Some 10, 8); (None, 9); (Some 1, 3)]) = [Some 1; Some 10; Some 2; None].
Proof. vm_compute. reflexivity. Qed.
