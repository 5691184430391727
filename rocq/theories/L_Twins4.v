(** Counts, pruning, histories and files of twins. *)
From Coq Require Import Ascii String List ZArith Bool Lia Permutation.
From Verif Require Import Base Lists Num M_Dataset S_Dataset M_NDCG M_Ensemble S_Ensemble L_Ensemble L_Ensemble2 L_Ensemble3
  M_Topology S_Topology L_Topology L_Topology2 L_Topology3 M_Text M_Svmlight S_Svmlight M_Float M_Loaders M_TextLoaders S_Loaders T_Loaders
  L_Loaders L_QuickRank L_Dump2 L_Export L_Lgbm L_Jforests L_CatBoost L_Float L_Float2 L_Fixed M_Xml S_Xml L_Xml3 L_Xml4 L_Xml5 S_Twins L_Twins L_Twins2 L_Twins3.
Import ListNotations.
Local Open Scope Z_scope.

Section Counts.
Context {N : num}.
Lemma map_erase {B} (g : forall A, tree A N -> B) (ts ts' : list (tree Z N)) : (forall t : tree Z N, g Z t = g unit (erase t)) -> map erase ts = map erase ts' ->
  map (g Z) ts = map (g Z) ts'.
Proof.
  intros H E. assert (K : forall us, map (g Z) us = map (g unit) (map erase us)) by (intros us; rewrite map_map; apply map_ext; exact H).
  rewrite (K ts), (K ts'), E. reflexivity.
Qed.
Lemma leaves_erase {A} (t : tree A N) : leaves (erase t) = leaves t.
Proof. induction t; cbn; auto. Qed.

Theorem counts_same (e e' : ensemble N) : same_trees e e' ->
  num_leaves e = num_leaves e' /\ num_nodes e = num_nodes e' /\ height_trees e = height_trees e' /\ max_leaves e = max_leaves e'.
Proof.
  intros H. destruct (layouts e e' H) as (ts & ts' & ws & L & L' & E & _ & _).
  destruct (C36_lemma e ts ws L) as (A1 & A2 & A3 & _), (C36_lemma e' ts' ws L') as (B1 & B2 & B3 & _).
  assert (E1 : num_leaves e = num_leaves e').
  { rewrite A1, B1. f_equal. apply (map_erase (fun A t => Z.of_nat (leaves t))); [intros t; rewrite leaves_erase; reflexivity|exact E]. }
  split; [exact E1|]. split.
  { rewrite A2, B2. f_equal. apply (map_erase (fun A t => Z.of_nat (size t))); [intros t; rewrite size_erase; reflexivity|exact E]. }
  split.
  { rewrite A3, B3. f_equal. apply (map_erase (fun A t => Z.of_nat (height t))); [intros t; rewrite height_erase; reflexivity|exact E]. }
  unfold max_leaves. rewrite E1. reflexivity.
Qed.

Lemma subtree_erase {A} : forall d c (t : tree A N), subtree_at d c (erase t) = option_map erase (subtree_at d c t).
Proof. induction d as [|d IH]; intros c [a v|a f x l r]; cbn [subtree_at erase]; try reflexivity. destruct (Z.testbit c (Z.of_nat d)); apply IH. Qed.
Lemma counted_erase {A} incl d c (t : tree A N) : counted incl d c (erase t) = counted incl d c t.
Proof.
  assert (H1 : forall d, node_here d c (erase t) = node_here d c t) by (intros k; unfold node_here; rewrite subtree_erase; destruct (subtree_at k c t); reflexivity).
  assert (H2 : forall d, split_here d c (erase t) = split_here d c t).
  { intros k. unfold split_here. rewrite subtree_erase. destruct (subtree_at k c t) as [[]|]; reflexivity. }
  unfold counted. rewrite H1. destruct incl; [reflexivity|]. destruct d; auto.
Qed.
Lemma how_many_erase (p : forall A, tree A N -> bool) (ts ts' : list (tree Z N)) : (forall t : tree Z N, p Z t = p unit (erase t)) -> map erase ts = map erase ts' ->
  how_many (p Z) ts = how_many (p Z) ts'.
Proof.
  intros H E. unfold how_many. f_equal. revert ts' E. induction ts as [|t ts IH]; intros [|t' ts'] E; try discriminate; [reflexivity|].
  cbn [map] in E. inversion E as [[E1 E2]]. cbn [filter]. rewrite (H t), E1, <- (H t'). destruct (p Z t'); cbn [length]; rewrite (IH ts' E2); reflexivity.
Qed.

Theorem topology_same incl (e e' : ensemble N) ts ts' ws order order' :
  laid_out e ts ws -> laid_out e' ts' ws -> map erase ts = map erase ts' -> Forall parents_first ts -> Forall parents_first ts' ->
  Forall (fun t => (height t <= 63)%nat) ts -> ts <> [] -> Permutation order (zrange 0 (e_ntrees e)) -> Permutation order' (zrange 0 (e_ntrees e')) ->
  exists m m' hs, topology incl e order = Ok (m, hs) /\ topology incl e' order' = Ok (m', hs) /\ forall d c, S_Topology.entry m (Z.of_nat d) c = S_Topology.entry m' (Z.of_nat d) c.
Proof.
  intros L L' E P P' H63 Hne O O'.
  assert (Hne' : ts' <> []) by (intros C; apply Hne; eapply erase_nil; [symmetry; exact E|exact C]).
  assert (Eh : map (fun t => Z.of_nat (height t)) ts = map (fun t => Z.of_nat (height t)) ts')
    by (apply (map_erase (fun A t => Z.of_nat (height t))); [intros t; rewrite height_erase; reflexivity|exact E]).
  assert (H63' : Forall (fun t => (height t <= 63)%nat) ts').
  { rewrite Forall_forall in *. intros t Ht. assert (Hi : In (Z.of_nat (height t)) (map (fun t => Z.of_nat (height t)) ts)) by (rewrite Eh; apply in_map_iff; eauto).
    apply in_map_iff in Hi as (u & Eu & Hu). specialize (H63 u Hu). lia. }
  destruct (C46_lemma incl e ts ws order L P H63 Hne O) as (m & T & C), (C46_lemma incl e' ts' ws order' L' P' H63' Hne' O') as (m' & T' & C').
  exists m, m', (map (fun t => Z.of_nat (height t)) ts). split; [exact T|]. split; [rewrite Eh; exact T'|]. intros d c. rewrite C, C'.
  assert (K : how_many (counted incl d c) ts = how_many (counted incl d c) ts').
  { apply (how_many_erase (fun A t => counted incl d c t) ts ts'); [intros t; symmetry; apply counted_erase|exact E]. }
  rewrite K. reflexivity.
Qed.

(** *** Pruning *)
Theorem prune_same (m m' : model N) n : twins m m' -> 0 <= n ->
  both twins (copy m (Some n)) (copy m' (Some n)) /\ both twins (limit_trees m (Some n)) (limit_trees m' (Some n)).
Proof.
  intros T Hn. pose proof T as (HT & Hlr & Hb & Hc). pose proof HT as (sh & ws & (ts & L & E) & (ts' & L' & E') & P).
  destruct (C35_lemma m ts ws n L Hn) as (p & E1 & E2 & E3 & E4 & E5 & E6 & E7), (C35_lemma m' ts' ws n L' Hn) as (p' & F1 & F2 & F3 & F4 & F5 & F6 & F7).
  rewrite E1, E2, F1, F2. cbn [both].
  assert (Hl : length ts = length ts') by (rewrite <- (map_length erase ts), E, <- E', map_length; reflexivity).
  assert (K : twins p p'); [|auto].
  destruct (Z_lt_ge_dec n (Z.of_nat (length ts))) as [H|H].
  - split; [|split; [congruence|]; split; [congruence|]].
    + exists (firstn (Z.to_nat n) sh), (firstn (Z.to_nat n) ws). split; [|split].
      * exists (firstn (Z.to_nat n) ts). split; [exact E3|]. rewrite <- firstn_map, E. reflexivity.
      * exists (firstn (Z.to_nat n) ts'). split; [exact F3|]. rewrite <- firstn_map, E'. reflexivity.
      * apply Forall_forall. intros t Ht. rewrite Forall_forall in P. apply P. rewrite <- (firstn_skipn (Z.to_nat n) sh). apply in_or_app. left. exact Ht.
    + rewrite E6, F6 by lia. constructor.
  - rewrite E7, F7 by lia. exact T.
Qed.

(** *** Histories *)
Theorem history_same (rowsum : list N -> N) (digest : list (list N) -> list N -> list Z -> Z) h : forall m m' : model N, twins m m' ->
  (forall o, In o (scored h) -> rows_fit (snd o)) -> twins (score_after rowsum digest m h) (score_after rowsum digest m' h).
Proof.
  unfold score_after. induction h as [|c h IH]; intros m m' T F; [exact T|]. cbn [fold_left]. apply IH.
  - destruct c as [o det cache|]; cbn [score_step].
    + apply score_same; [exact T|]. apply F. cbn [scored flat_map app]. left. reflexivity.
    + destruct T as (HT & Hlr & Hb & Hc). split; [exact HT|]. split; [exact Hlr|]. split; [exact Hb|]. constructor.
  - intros o Ho. apply F. unfold scored in *. cbn [flat_map]. apply in_or_app. right. exact Ho.
Qed.

(** *** Files *)
Lemma holds_twins (e e' : ensemble N) sh ws lr b : holds e sh ws -> holds e' sh ws -> Forall (fun t => Forall (fun f => 0 <= f) (splits t)) sh ->
  twins (mkModel e lr b []) (mkModel e' lr b []).
Proof. intros H H' P. split; [exists sh, ws; auto|]. split; [reflexivity|]. split; [reflexivity|]. constructor. Qed.
End Counts.

Section Files.
Context {N : num}.
Lemma erase_converted {A V} (f g : V -> N) (ts : list (tree A V)) : map erase (map (convert f g) ts) = map (convert f g) (map erase ts).
Proof. rewrite !map_map. apply map_ext. intros t. apply erase_convert. Qed.
Lemma erase_placed : forall ps a, map erase (placed a ps) = map erase (map snd ps).
Proof. induction ps as [|[p t] ps IH]; intros a; cbn [placed map snd]; [reflexivity|]. rewrite erase_relabel, IH. reflexivity. Qed.
Lemma erase_shifted {V} (ts : list (tree Z V)) : forall a, map erase (shifted a ts) = map erase ts.
Proof. induction ts as [|t ts IH]; intros a; cbn [shifted map]; [reflexivity|]. rewrite erase_relabel, IH. reflexivity. Qed.
Lemma erase_backwards n (ts : list (tree Z N)) : forall k, map erase (backwards n k ts) = map erase ts.
Proof. induction ts as [|t ts IH]; intros k; cbn [backwards map]; [reflexivity|]. rewrite erase_relabel, IH. reflexivity. Qed.

Variable rd : text -> option N.
Notation read_trees ts := (map (convert (cell_of rd) (cell_of rd)) (map erase ts)).

Theorem quickrank_holds wts x : quick_doc wts x ->
  Forall (fun p => readable rd (fst p) /\ Forall (readable rd) (values (snd p)) /\ fits16 (snd p)) wts ->
  exists e, quick_load rd x = Ok e /\ holds e (read_trees (map snd wts)) (map (cell_of rd) (map fst wts)).
Proof.
  intros H1 H2. destruct (C38_lemma rd wts x H1 H2) as (e & E & L). exists e. split; [exact E|]. rewrite (map_map fst (cell_of rd)).
  refine (ex_intro _ _ (conj L _)). rewrite erase_all, <- erase_converted, !map_map. reflexivity.
Qed.
Theorem lightgbm_holds ps ls f : lgbm_file rd (map fst ps) ls -> file_text f ls ->
  Forall (fun p => arr_tree (fst p) (snd p) /\ fits16 (snd p) /\ Forall (readable rd) (a_threshold (fst p)) /\ Forall (readable rd) (a_leaf (fst p))) ps ->
  exists e, lgbm_load rd f = Ok e /\ holds e (read_trees (map snd ps)) (map (fun _ => none) ps).
Proof.
  intros H1 H2 H3. destruct (C40_lemma rd ps ls f H1 H2 H3) as (e & E & L). exists e. split; [exact E|]. eexists. split; [exact L|].
  rewrite erase_converted, erase_placed. reflexivity.
Qed.
Theorem xgboost_holds (lower : N -> N) ts ls f : xgb_lines 0 ts ls -> file_text f ls -> Forall (fun t => fits16 t /\ Forall (readable rd) (values t)) ts ->
  exists e, xgb_load rd lower f = Ok e /\ holds e (map (convert (fun x => lower (cell_of rd x)) (cell_of rd)) (map erase ts)) (map (fun _ => none) ts).
Proof.
  intros H1 H2 H3. destruct (C41_lemma rd lower ts ls f H1 H2 H3) as (e & E & L). exists e. split; [exact E|]. eexists. split; [exact L|].
  rewrite erase_all, erase_converted. reflexivity.
Qed.
Theorem scikit_holds ts base lr ls f b l : sk_lines ts base lr ls -> file_text f ls ->
  Forall (fun t => fits16 t /\ Forall (readable rd) (values t) /\ own_numbers t) ts -> rd base = Some b -> rd lr = Some l ->
  exists e, sk_load rd f = Ok (e, Some b, Some l) /\ holds e (read_trees ts) (map (fun _ => none) ts).
Proof.
  intros H1 H2 H3 H4 H5. destruct (C43_load_lemma rd ts base lr ls f b l H1 H2 H3 H4 H5) as (e & E & L). exists e. split; [exact E|]. eexists. split; [exact L|].
  rewrite erase_shifted, erase_converted. reflexivity.
Qed.
Theorem jforests_holds (ps : list (text * arrays * tree Z text)) x : jf_doc (map fst ps) x ->
  Forall (fun p => readable rd (fst (fst p)) /\ arr_tree (snd (fst p)) (snd p) /\ fits16 (snd p) /\
            Forall (readable rd) (a_threshold (snd (fst p))) /\ Forall (readable rd) (a_leaf (snd (fst p)))) ps ->
  exists e, jf_load rd x = Ok e /\ holds e (read_trees (map snd ps)) (map (cell_of rd) (map fst (map fst ps))).
Proof.
  intros H1 H2. destruct (C44_lemma rd ps x H1 H2) as (e & E & L). exists e. split; [exact E|]. rewrite (map_map fst fst), (map_map _ (cell_of rd)).
  refine (ex_intro _ _ (conj L _)). rewrite erase_converted, erase_placed, !map_map. reflexivity.
Qed.
Theorem catboost_holds n (ts : list (tree Z N)) nodes junk : cat_file ts nodes -> ts <> [] -> Forall cat_tree ts -> Forall fits16 ts ->
  Forall (fun t => size t = n) ts -> Z.of_nat n <= 65535 -> (length ts <= length junk)%nat ->
  exists e, cat_load junk nodes = Ok e /\ holds e (map (convert nf32 nf32) (map erase ts)) (map (fun _ => none) ts).
Proof.
  intros H1 H2 H3 H4 H5 H6 H7. destruct (C45_lemma n ts nodes junk H1 H2 H3 H4 H5 H6 H7) as (e & E & L). exists e. split; [exact E|]. eexists. split; [exact L|].
  rewrite erase_backwards, erase_converted. reflexivity.
Qed.

(** A saved and reloaded model. *)
Theorem saved_twins (repr : N -> text) (half : N) (m : model N) ts ws : (forall v, Forall data_char (repr v)) ->
  laid_out (m_ens m) ts ws -> ts <> [] -> nonneg_features ts ->
  (forall t v, In t ts -> In v (values t) -> word (repr v) /\ readable rd (repr v) /\ cell_of rd (repr v) = v) ->
  Forall (fun v => word (repr v) /\ readable rd (repr v) /\ cell_of rd (repr v) = v) ws -> Forall fits16 ts ->
  exists t e' m', quick_save_text repr m = Ok t /\ quick_load_text rd t = Parsed (Ok e') /\
    construct half QuickRank (m_lr m) (m_base m) None (Ok e') = Ok m' /\ twins (clear_cache m) m'.
Proof.
  intros D L Hne P RV RW F16. destruct (save_load_text repr D rd m ts ws (proj1 L) Hne RV RW F16) as (t & e' & S1 & S2 & L').
  exists t, e', (mkModel e' (m_lr m) (m_base m) []). split; [exact S1|]. split; [exact S2|]. split.
  - unfold construct, default_base, limit_trees. cbn [bind]. destruct (m_base m); reflexivity.
  - unfold clear_cache. apply (holds_twins (m_ens m) e' (map erase ts) ws).
    + exists ts. auto.
    + exists (preorder_all 0 ts). split; [exact L'|]. apply erase_all.
    + apply Forall_forall. intros u Hu. apply in_map_iff in Hu as (v & <- & Hv). rewrite splits_erase. unfold nonneg_features in P. rewrite Forall_forall in P. apply P. exact Hv.
Qed.
End Files.
