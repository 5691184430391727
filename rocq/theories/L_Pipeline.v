(** Proofs: from the text of a data set and a model to the value of a metric. *)
From Coq Require Import Ascii String List ZArith Lia Bool Permutation Sorted.
From Verif Require Import Base Lists Num M_Text M_Svmlight S_Svmlight L_Svmlight L_Svmlight2 M_Dataset S_Dataset L_Dataset M_Metrics L_MetricEval
  M_Ensemble S_Ensemble L_Ensemble L_Ensemble2 L_Ensemble3 M_Loaders M_TextLoaders S_Loaders L_Loaders L_Dump2 M_Xml S_Xml L_Xml5 S_Pipeline.
Import ListNotations.
Local Open Scope Z_scope.

(** ** Distinct values *)
Lemma first_seen_snoc l x : first_seen (l ++ [x]) = first_seen l ++ (if existsb (Z.eqb x) l then [] else [x]).
Proof.
  induction l as [|a l IH]; [reflexivity|]. cbn [app first_seen existsb]. rewrite IH, filter_app. cbn [app]. f_equal. f_equal.
  destruct (existsb (Z.eqb x) l); [rewrite orb_true_r; reflexivity|]. rewrite orb_false_r. cbn [filter]. destruct (x =? a); reflexivity.
Qed.
Lemma firsts_snoc l x : firsts (l ++ [x]) = firsts l ++ (if existsb (Z.eqb x) l then [] else [length l]).
Proof.
  unfold firsts. rewrite app_length. cbn [length]. rewrite seq_app, filter_app. f_equal.
  - apply filter_ext_in. intros i Hi. apply in_seq in Hi. unfold is_first. rewrite firstn_app, nth_error_app1 by lia.
    replace (i - length l)%nat with 0%nat by lia. cbn [firstn]. rewrite app_nil_r. reflexivity.
  - cbn [seq filter Nat.add]. unfold is_first. rewrite firstn_app, firstn_all, Nat.sub_diag. cbn [firstn].
    rewrite app_nil_r, nth_error_app2, Nat.sub_diag by lia. cbn [nth_error]. destruct (existsb (Z.eqb x) l); reflexivity.
Qed.
Lemma firsts_seen ids : map (fun i => nth i ids 0) (firsts ids) = first_seen ids.
Proof.
  induction ids as [|x l IH] using rev_ind; [reflexivity|]. rewrite firsts_snoc, first_seen_snoc, map_app, <- IH. f_equal.
  - apply map_ext_in. intros i Hi. apply firsts_lt in Hi. apply app_nth1. exact Hi.
  - destruct (existsb (Z.eqb x) l); [reflexivity|]. cbn [map]. rewrite app_nth2, Nat.sub_diag by lia. reflexivity.
Qed.
Lemma of_query_select {A} q ids : forall l : list A, of_query q ids l = select q ids l.
Proof.
  unfold select. induction ids as [|i ids IH]; intros [|a l]; cbn [of_query combine filter map fst]; try reflexivity.
  destruct (i =? q); cbn [map snd]; rewrite IH; reflexivity.
Qed.
Lemma values_mapM {V} (fq : list V -> list V -> res V) ids y s qs r : values_of fq ids y s qs r ->
  mapM (fun q => fq (select q ids y) (select q ids s)) qs = r.
Proof.
  induction 1 as [|q qs x vs E _ IH|q qs e E|q qs x e E _ IH]; cbn [mapM]; rewrite <- ?of_query_select, ?E; cbn [bind]; rewrite ?IH; reflexivity.
Qed.

(** ** The columns *)
Lemma somes_all {A B} (g : A -> option B) l l' : Forall2 (fun a b => g a = Some b) l l' -> somes (map g l) = l'.
Proof. induction 1 as [|a b l l' E _ IH]; cbn [map somes]; [reflexivity|]. rewrite E, IH. reflexivity. Qed.
Lemma forall2_len {A B} (P : A -> B -> Prop) l l' : Forall2 P l l' -> length l = length l'.
Proof. induction 1; cbn; auto. Qed.
Lemma line_qid l e q : data_line l e -> en_qid e = Some q -> - 2 ^ 31 <= q < 2 ^ 31.
Proof.
  intros H E. destruct H as [w0 ty y tq q0 tp ps w1 cmt H1 H2 T H3 H4 H5 H6]. cbn [en_qid] in E. subst q0.
  inversion T as [|w t0 q1 W1 W2 I]; subst. destruct I as (sg & neg & ds & _ & _ & _ & _ & _ & B). exact B.
Qed.
Lemma entries_qids ls es ids : entries ls es -> Forall2 (fun e q => en_qid e = Some q) es ids -> int32_ids ids.
Proof.
  intros E. revert ids. unfold int32_ids. induction E as [|l ls es _ _ IH|l e ls es D _ IH]; intros ids Q; inversion Q; subst; auto.
  constructor; [eapply line_qid; eauto|auto].
Qed.
Lemma width_cons e es : width (e :: es) = Nat.max (widest (en_pairs e)) (width es).
Proof. reflexivity. Qed.
Lemma widest_reached ps k : (0 < k <= widest ps)%nat -> exists p, In p ps /\ (k <= Z.to_nat (fst p))%nat.
Proof.
  induction ps as [|[f v] ps IH]; [cbn; lia|]. rewrite widest_cons. intros H.
  destruct (Nat.le_gt_cases k (Z.to_nat f)) as [L|L]; [exists (f, v); split; [left; reflexivity|exact L]|].
  destruct IH as (p & P1 & P2); [lia|]. exists p. split; [right; exact P1|exact P2].
Qed.
Lemma mentioned_width es f : 0 <= f -> (mentioned es f <-> f < Z.of_nat (width es)).
Proof.
  intros H0. split.
  - intros (e & p & He & Hp & L). induction es as [|a es IH]; [destruct He|]. rewrite width_cons. destruct He as [->|He].
    + pose proof (widest_in _ _ Hp). lia.
    + specialize (IH He). lia.
  - induction es as [|a es IH]; [cbn; lia|]. rewrite width_cons. intros L.
    destruct (Z_lt_ge_dec f (Z.of_nat (width es))) as [L1|L1].
    + destruct (IH L1) as (e & p & He & R). exists e, p. split; [right; exact He|exact R].
    + destruct (widest_reached (en_pairs a) (S (Z.to_nat f))) as (p & P1 & P2); [lia|]. exists a, p.
      split; [left; reflexivity|]. split; [exact P1|lia].
Qed.

Section Pipe.
Context {N : num} (F : fmt N).
Definition row_of (w : nat) (e : entry) : list N := map (clamp F) (dense F w (en_pairs e)).
Lemma row_length w e : length (row_of w e) = w.
Proof. unfold row_of, dense. rewrite !map_length, seq_length. reflexivity. Qed.
Lemma row_value w e f : 0 <= f < Z.of_nat w -> nth (Z.to_nat f) (row_of w e) nzero = feature_value F e f.
Proof.
  intros H. unfold feature_value. rewrite (nth_indep (row_of w e) nzero (clamp F (cell F (en_pairs e) 0))) by (rewrite row_length; lia).
  unfold row_of. rewrite map_nth. f_equal. unfold dense.
  rewrite (map_nth (fun j => cell F (en_pairs e) (Z.of_nat j)) (seq 1 w) 0%nat). f_equal. rewrite seq_nth by lia. lia.
Qed.
Lemma exit_line w e (t : tree Z N) : Forall (fun f => 0 <= f < Z.of_nat w) (splits t) -> snd (exit_leaf (row_of w e) t) = line_leaf F e t.
Proof.
  induction t as [a v|a f thr l IHl r IHr]; cbn [splits exit_leaf line_leaf]; intros H; [reflexivity|].
  inversion H as [|? ? H1 H2]; subst. apply Forall_app in H2 as (H2 & H3). rewrite row_value by exact H1. destruct (nleb _ thr); auto.
Qed.
Lemma score_line w e ws (ts : list (tree Z N)) : Forall (fun t => Forall (fun f => 0 <= f < Z.of_nat w) (splits t)) ts ->
  ensemble_score ws ts (row_of w e) = line_score F (combine ws ts) e.
Proof.
  unfold ensemble_score, line_score, tree_scores. intros H. revert ws. generalize (nzero (n:=N)).
  induction ts as [|t ts IH]; intros y [|v ws]; try reflexivity.
  inversion H as [|? ? H1 H2]; subst. cbn [combine map fold_left fst snd]. rewrite exit_line by exact H1. apply IH. exact H2.
Qed.

Variable rowsum : list N -> N.
Variable digest : list (list N) -> list N -> list Z -> Z.
Theorem C99_lemma (m : model N) f es ys ids (ts : list (tree Z N)) ws key cache :
  data_file F f es ys ids -> laid_out (m_ens m) ts ws -> ts <> [] -> nonneg_features ts -> m_cache m = [] ->
  exists d, ds_load F f = Ok d /\
    ((exists t g, In t ts /\ In g (splits t) /\ ~ mentioned es g) -> snd (score rowsum digest m (key, d) false cache) = Err RuntimeError) /\
    ((forall t g, In t ts -> In g (splits t) -> mentioned es g) ->
     let s := map (fun e => scaled (m_lr m) (m_base m) (line_score F (combine ws ts) e)) es in
     snd (score rowsum digest m (key, d) false cache) = Ok (Basic (Some s)) /\
     (forall fq v, values_of fq ids ys s (first_seen ids) (Ok v) -> metric_eval fq d s = Ok (nanmean (map nf32 v), map nf32 v)) /\
     (forall fq e, values_of fq ids ys s (first_seen ids) (Err e) -> metric_eval fq d s = Err e)).
Proof.
  intros [(ls & T1 & T2) S I FI LB Q G SZ] HL Hne Hpos H0.
  pose proof (C13_increasing_lemma F f ls es ys T1 T2 I S FI LB SZ) as LD.
  rewrite (somes_all en_qid es ids Q) in LD.
  assert (L1 : length es = length ids) by (eapply forall2_len; exact Q).
  assert (L2 : length es = length ys) by (eapply forall2_len; exact LB).
  set (X := map (fun e => map (clamp F) (dense F (width es) (en_pairs e))) es) in *.
  assert (LX : length ids = length X) by (unfold X; rewrite map_length; congruence).
  pose proof (ds_init_ok (width es) X ys ids LX) as DI. rewrite firsts_seen in DI.
  set (d := mkDataset X (width es) ys (first_seen ids) (firsts ids ++ [length ids])) in *.
  assert (B : built (width es) X ys ids d).
  { split; [congruence|]. split; [exact G|]. split; [eapply entries_qids; eauto|exact DI]. }
  assert (Hrows : Forall (fun r => length r = width es) X).
  { apply Forall_forall. intros r Hr. apply in_map_iff in Hr as (e & <- & _). apply row_length. }
  exists d. split; [unfold ds_load; rewrite LD; exact DI|].
  assert (TW : (exists t g, In t ts /\ In g (splits t) /\ ~ mentioned es g) <-> too_wide (width es) ts).
  { unfold too_wide, nonneg_features in *. rewrite Forall_forall in Hpos. split; intros (t & g & H1 & H2 & H3); exists t, g; repeat split; auto.
    - pose proof (Hpos t H1) as P. rewrite Forall_forall in P. specialize (P g H2).
      destruct (Z_lt_ge_dec g (Z.of_nat (width es))); [|lia]. exfalso. apply H3. apply mentioned_width; auto.
    - pose proof (Hpos t H1) as P. rewrite Forall_forall in P. specialize (P g H2).
      intros M. apply mentioned_width in M; lia. }
  split.
  - intros H. apply TW in H. apply (C37_score_lemma rowsum digest m (key, d) false cache ts ws HL Hne Hpos Hrows H0). exact H.
  - intros HM s.
    assert (NW : ~ too_wide (width es) ts).
    { intros H. apply TW in H. destruct H as (t & g & H1 & H2 & H3). apply H3. eauto. }
    assert (CV : forall row, In row X -> covers row ts).
    { intros row Hr. rewrite Forall_forall in Hrows. apply (covers_of_check (m_ens m) ts ws d row HL NW Hpos). apply Hrows. exact Hr. }
    assert (W : Forall (fun t => Forall (fun f => 0 <= f < Z.of_nat (width es)) (splits t)) ts).
    { unfold nonneg_features in Hpos. rewrite Forall_forall in Hpos. apply Forall_forall. intros t Ht. pose proof (Hpos t Ht) as P.
      rewrite Forall_forall in P. apply Forall_forall. intros g Hg. specialize (P g Hg). split; [exact P|]. apply mentioned_width; eauto. }
    split; [|split].
    + unfold score. rewrite H0. cbn [scorer_find].
      destruct (C37_check_lemma _ _ _ d HL Hne) as [[_ Hw]|[E _]]; [destruct (NW Hw)|]. cbn [snd] in E |- *. rewrite E. cbn [bind].
      unfold scorer_score. cbn [negb andb orb is_some sc_y sc_leaves new_scorer]. destruct HL as [He _].
      change (ds_X d) with X. rewrite (C31_lemma _ _ _ _ He CV). cbn [bind fst snd].
      assert (A : adjust m false (mkScorer (Some (map (ensemble_score ws ts) X)) None None) = mkScorer (Some s) None None).
      { rewrite (adjust_parts m false). f_equal. f_equal. unfold s, X. rewrite !map_map. apply map_ext. intros e.
        change (map (clamp F) (dense F (width es) (en_pairs e))) with (row_of (width es) e). rewrite score_line by exact W.
        unfold scaled, truthy. destruct (m_base m) as [b|]; [destruct (neqb b nzero)|]; reflexivity. }
      cbn [sc_partial sc_leaves new_scorer]. destruct cache; cbn [scorer_store bind snd]; rewrite A; reflexivity.
    + intros fq v V. rewrite (C16_lemma fq _ _ _ _ d s B) by (unfold s; rewrite map_length; exact L1).
      change (ds_qids d) with (first_seen ids). rewrite (values_mapM _ _ _ _ _ _ V). reflexivity.
    + intros fq e V. rewrite (C16_lemma fq _ _ _ _ d s B) by (unfold s; rewrite map_length; exact L1).
      change (ds_qids d) with (first_seen ids). rewrite (values_mapM _ _ _ _ _ _ V). reflexivity.
Qed.

(** ** Models read from their text *)
Lemma leaf_erase {A B} e (t : tree A N) : forall t' : tree B N, erase t = erase t' -> line_leaf F e t = line_leaf F e t'.
Proof.
  induction t as [a v|a f x l IHl r IHr]; intros [b w|b g z l' r'] E; cbn [erase] in E; try discriminate E; injection E; intros; subst; [reflexivity|].
  cbn [line_leaf]. rewrite (IHl l'), (IHr r') by assumption. reflexivity.
Qed.
Lemma splits_erase {A B} (t : tree A N) : forall t' : tree B N, erase t = erase t' -> splits t = splits t'.
Proof.
  induction t as [a v|a f x l IHl r IHr]; intros [b w|b g z l' r'] E; cbn [erase] in E; try discriminate E; injection E; intros; subst; [reflexivity|].
  cbn [splits]. rewrite (IHl l'), (IHr r') by assumption. reflexivity.
Qed.
Lemma score_of_erase {A} e (wts : list (N * tree A N)) : forall ts : list (tree Z N), map erase ts = map erase (map snd wts) ->
  line_score F (combine (map fst wts) ts) e = line_score F wts e.
Proof.
  unfold line_score. generalize (nzero (n:=N)). induction wts as [|[w t] wts IH]; intros y [|t' ts] E; try discriminate E; [reflexivity|].
  cbn [map snd fst combine fold_left] in *. injection E as E1 E2. rewrite (leaf_erase e t' t E1). apply IH. exact E2.
Qed.
Lemma erase_in {A} (wts : list (N * tree A N)) (ts : list (tree Z N)) : map erase ts = map erase (map snd wts) ->
  forall t, In t ts -> exists p, In p wts /\ splits (snd p) = splits t.
Proof.
  revert ts. induction wts as [|[w t] wts IH]; intros [|t' ts] E; try discriminate E; intros u Hu; [destruct Hu|].
  cbn [map snd fst] in E. injection E as E1 E2. destruct Hu as [<-|Hu].
  - exists (w, t). split; [left; reflexivity|]. symmetry. apply splits_erase. exact E1.
  - destruct (IH ts E2 u Hu) as (p & P1 & P2). exists p. split; [right; exact P1|exact P2].
Qed.
Lemma in_erase {A} (wts : list (N * tree A N)) (ts : list (tree Z N)) : map erase ts = map erase (map snd wts) ->
  forall p, In p wts -> exists t, In t ts /\ splits (snd p) = splits t.
Proof.
  revert ts. induction wts as [|[w t] wts IH]; intros [|t' ts] E; try discriminate E; intros u Hu; [destruct Hu|].
  cbn [map snd fst] in E. injection E as E1 E2. destruct Hu as [<-|Hu].
  - exists t'. split; [left; reflexivity|]. symmetry. apply splits_erase. exact E1.
  - destruct (IH ts E2 u Hu) as (p & P1 & P2). exists p. split; [right; exact P1|exact P2].
Qed.
Theorem C99_erased {A} (m : model N) f es ys ids (ts : list (tree Z N)) (wts : list (N * tree A N)) :
  data_file F f es ys ids -> laid_out (m_ens m) ts (map fst wts) -> map erase ts = map erase (map snd wts) -> wts <> [] ->
  Forall (fun p => Forall (fun g => 0 <= g) (splits (snd p))) wts -> m_cache m = [] ->
  exists d, ds_load F f = Ok d /\ answers F rowsum digest wts (m_lr m) (m_base m) es ys ids m d.
Proof.
  intros D L E Hne Hpos H0.
  assert (T : ts <> []) by (intros ->; destruct wts; [auto|discriminate E]).
  assert (P : nonneg_features ts).
  { apply Forall_forall. intros t Ht. destruct (erase_in wts ts E t Ht) as (p & P1 & <-). rewrite Forall_forall in Hpos. auto. }
  destruct (C99_lemma m f es ys ids ts (map fst wts) 0 false D L T P H0) as (d & D1 & _). exists d. split; [exact D1|].
  intros key cache. destruct (C99_lemma m f es ys ids ts (map fst wts) key cache D L T P H0) as (d' & D1' & R1 & R2).
  assert (d' = d) by congruence. subst d'. split.
  - intros (p & g & H1 & H2 & H3). apply R1. destruct (in_erase wts ts E p H1) as (t & T1 & T2). exists t, g. rewrite <- T2. auto.
  - intros HM. cbv zeta. rewrite <- (map_ext (fun e => scaled (m_lr m) (m_base m) (line_score F (combine (map fst wts) ts) e))) by (intros e; rewrite (score_of_erase e wts ts E); reflexivity).
    apply R2. intros t g H1 H2. destruct (erase_in wts ts E t H1) as (p & P1 & P2). apply (HM p); [exact P1|rewrite P2; exact H2].
Qed.

Variable rd : text -> option N.
Notation cell := (cell_of rd).
Lemma dvalue_nonneg t : digits t -> 0 <= dvalue t.
Proof. apply L_Text.dvalue_nonneg. Qed.
Lemma dump_splits op lt t ls : dump_tree op lt t ls -> Forall (fun g => 0 <= g) (splits t).
Proof.
  induction 1 as [|i f thr l r ind ti tf tail nl ll lr _ _ _ D _ _ _ _ _ _ IHl _ IHr]; cbn [splits]; [constructor|].
  constructor; [destruct D as (D1 & _ & <-); apply dvalue_nonneg; exact D1|apply Forall_app; auto].
Qed.
Lemma dumps_splits op lt k ts ls : dump_trees op lt k ts ls -> Forall (fun t => Forall (fun g => 0 <= g) (splits t)) ts.
Proof. induction 1; constructor; auto. eapply dump_splits; eauto. Qed.

Theorem C99_xgboost lower half lr base (ts : list (tree Z text)) lm g f es ys ids :
  xgb_lines 0 ts lm -> file_text g lm -> Forall (xgb_ok rd) ts -> ts <> [] -> data_file F f es ys ids ->
  exists m d, construct half XGBoost lr base None (xgb_load rd lower g) = Ok m /\ ds_load F f = Ok d /\
    answers F rowsum digest (map (fun t => (none, convert (fun x => lower (cell x)) cell t)) ts)
      lr (Some (match base with Some b => b | None => half end)) es ys ids m d.
Proof.
  intros X G OK Hne D. destruct (C41_lemma rd lower ts lm g X G OK) as (e & E1 & E2).
  exists (mkModel e lr (default_base XGBoost half base) []). rewrite E1.
  destruct (C99_erased (mkModel e lr (default_base XGBoost half base) []) f es ys ids
    (preorder_all 0 (map (convert (fun x => lower (cell x)) cell) ts)) (map (fun t => (none, convert (fun x => lower (cell x)) cell t)) ts)) as (d & D1 & D2).
  - exact D.
  - rewrite map_map. exact E2.
  - rewrite erase_all, !map_map. reflexivity.
  - destruct ts; [auto|discriminate].
  - apply Forall_forall. intros p Hp. apply in_map_iff in Hp as (t & <- & Ht). cbn [snd]. rewrite splits_convert.
    pose proof (dumps_splits _ _ _ _ _ X) as P. rewrite Forall_forall in P. auto.
  - reflexivity.
  - exists d. split; [reflexivity|]. split; [exact D1|]. destruct base; exact D2.
Qed.
Theorem C99_quickrank half lr base wts t x f es ys ids :
  xml_document t x -> quick_doc wts x ->
  Forall (fun p => readable rd (fst p) /\ Forall (readable rd) (values (snd p)) /\ fits16 (snd p)) wts ->
  Forall (fun p => Forall (fun g => 0 <= g) (splits (snd p))) wts -> wts <> [] -> data_file F f es ys ids ->
  exists e m d, quick_load_text rd t = Parsed (Ok e) /\ construct half QuickRank lr base None (Ok e) = Ok m /\ ds_load F f = Ok d /\
    answers F rowsum digest (map (fun p => (cell (fst p), convert cell cell (snd p))) wts) lr base es ys ids m d.
Proof.
  intros X Q OK Hpos Hne D. destruct (quickrank_text rd wts t x X Q OK) as (e & E1 & E2).
  exists e, (mkModel e lr base []).
  destruct (C99_erased (mkModel e lr base []) f es ys ids
    (preorder_all 0 (map (fun p => convert cell cell (snd p)) wts)) (map (fun p => (cell (fst p), convert cell cell (snd p))) wts)) as (d & D1 & D2).
  - exact D.
  - rewrite map_map. exact E2.
  - rewrite erase_all, !map_map. reflexivity.
  - destruct wts; [auto|discriminate].
  - apply Forall_forall. intros p Hp. apply in_map_iff in Hp as (q & <- & Hq). cbn [snd]. rewrite splits_convert.
    rewrite Forall_forall in Hpos. auto.
  - reflexivity.
  - exists d. split; [exact E1|]. split; [destruct base; reflexivity|]. split; [exact D1|exact D2].
Qed.
End Pipe.
