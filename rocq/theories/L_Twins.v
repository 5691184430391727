(** Scoring twins. *)
From Coq Require Import List ZArith Bool Lia Permutation.
From Verif Require Import Base Lists Num M_Dataset S_Dataset M_NDCG M_Ensemble S_Ensemble L_Ensemble L_Ensemble2 L_Ensemble3 L_QuickRank S_Twins M_Effectiveness.
Import ListNotations.
Local Open Scope Z_scope.

(** ** [both] *)
Lemma both_eq {A} (r : res A) : both eq r r.
Proof. destruct r; reflexivity. Qed.
Lemma both_of_eq {A} (r r' : res A) : r = r' -> both eq r r'.
Proof. intros ->. apply both_eq. Qed.
Lemma both_bind {A B A' B'} (R : A -> A' -> Prop) (S : B -> B' -> Prop) r r' f f' :
  both R r r' -> (forall a a', R a a' -> both S (f a) (f' a')) -> both S (bind r f) (bind r' f').
Proof. destruct r, r'; cbn; try contradiction; auto. Qed.
Lemma both_same {A B B'} (S : B -> B' -> Prop) (r : res A) f f' : (forall a, both S (f a) (f' a)) -> both S (bind r f) (bind r f').
Proof. intros H. destruct r; cbn; auto. Qed.
Lemma both_impl {A B} (R S : A -> B -> Prop) r r' : (forall a b, R a b -> S a b) -> both R r r' -> both S r r'.
Proof. destruct r, r'; cbn; auto. Qed.
Lemma eq_of_both {A} (r r' : res A) : both eq r r' -> r = r'.
Proof. destruct r, r'; cbn; try contradiction; congruence. Qed.

Lemma both_mapST {S S' A B} (Rs : S -> S' -> Prop) (f : S -> A -> res (S * B)) (f' : S' -> A -> res (S' * B)) l :
  (forall s s' x, In x l -> Rs s s' -> both (fun p q => Rs (fst p) (fst q) /\ snd p = snd q) (f s x) (f' s' x)) ->
  forall s s', Rs s s' -> both (fun p q => Rs (fst p) (fst q) /\ snd p = snd q) (mapST f s l) (mapST f' s' l).
Proof.
  induction l as [|x l IH]; intros H s s' Hs; cbn [mapST].
  - cbn. auto.
  - eapply both_bind; [apply H; [left; reflexivity|exact Hs]|]. intros a a' [Ha Ea].
    eapply both_bind; [apply IH; [|exact Ha]|].
    + intros t t' y Hy Ht. apply H; [right; exact Hy|exact Ht].
    + intros b b' [Hb Eb]. cbn. rewrite Ea, Eb. auto.
Qed.

(** ** Scores *)
Section Score.
Context {N : num}.
Variable rowsum : list N -> N.
Variable digest : list (list N) -> list N -> list Z -> Z.

Lemma erase_nil (ts ts' : list (tree Z N)) : map erase ts = map erase ts' -> ts = [] -> ts' = [].
Proof. intros E ->. destruct ts'; [reflexivity|discriminate]. Qed.
Lemma splits_shapes (ts : list (tree Z N)) : Forall (fun t => Forall (fun f => 0 <= f) (splits t)) (map erase ts) -> nonneg_features ts.
Proof.
  unfold nonneg_features. rewrite !Forall_forall. intros H t Ht. rewrite <- (splits_erase t). apply H. apply in_map. exact Ht.
Qed.
Lemma wide_erase nf (ts ts' : list (tree Z N)) : map erase ts = map erase ts' -> too_wide nf ts -> too_wide nf ts'.
Proof.
  intros E (t & f & Ht & Hf & H). assert (Hi : In (erase t) (map erase ts')) by (rewrite <- E; apply in_map; exact Ht).
  apply in_map_iff in Hi as (t' & E' & Ht'). exists t', f. split; [exact Ht'|]. split; [|exact H].
  rewrite <- (splits_erase t'), E', splits_erase. exact Hf.
Qed.

(** Two layouts of the same trees. *)
Lemma layouts (e e' : ensemble N) : same_trees e e' -> exists ts ts' ws, laid_out e ts ws /\ laid_out e' ts' ws /\ map erase ts = map erase ts' /\
  nonneg_features ts /\ nonneg_features ts'.
Proof.
  intros (sh & ws & (ts & L & E) & (ts' & L' & E') & H). exists ts, ts', ws. split; auto. split; auto. split; [congruence|].
  split; apply splits_shapes; [rewrite E|rewrite E']; exact H.
Qed.

Lemma check_same (e e' : ensemble N) (d : dataset N) : same_trees e e' -> check_features e d = check_features e' d.
Proof.
  intros H. destruct (layouts e e' H) as (ts & ts' & ws & L & L' & E & _ & _). destruct ts as [|t0 ts0] eqn:Ets.
  - rewrite (erase_nil _ _ E eq_refl) in L'. destruct L as (_ & _ & _ & _ & _ & _ & F), L' as (_ & _ & _ & _ & _ & _ & F').
    cbn in F, F'. unfold check_features, max_feature. destruct (e_feature e); [|discriminate]. destruct (e_feature e'); [|discriminate]. reflexivity.
  - rewrite <- Ets in *. assert (Hne : ts <> []) by (rewrite Ets; discriminate).
    assert (Hne' : ts' <> []) by (intros C; apply Hne; eapply erase_nil; [symmetry; exact E|exact C]).
    destruct (C37_check_lemma e ts ws d L Hne) as [[-> W]|[-> W]], (C37_check_lemma e' ts' ws d L' Hne') as [[-> W']|[-> W']]; auto.
    + exfalso. apply W'. eapply wide_erase; eauto.
    + exfalso. apply W. eapply wide_erase; [symmetry; exact E|exact W'].
Qed.

Lemma tree_scores_erase ws (ts ts' : list (tree Z N)) row : map erase ts = map erase ts' -> tree_scores ws ts row = tree_scores ws ts' row.
Proof.
  unfold tree_scores. revert ts' ws. induction ts as [|t ts IH]; intros [|t' ts'] ws E; try discriminate; [reflexivity|].
  destruct ws as [|w ws]; [reflexivity|]. cbn [combine map fst snd] in *. injection E as E1 E2. f_equal; [|apply IH; exact E2].
  rewrite (exit_erase row t), (exit_erase row t'), E1. reflexivity.
Qed.

Lemma scoring_same (e e' : ensemble N) (d : dataset N) : same_trees e e' -> rows_fit d -> check_features e d = Ok tt ->
  basic_scoring e (ds_X d) = basic_scoring e' (ds_X d) /\
  exists l l' p, detailed_scoring e (ds_X d) = Ok (l, p) /\ detailed_scoring e' (ds_X d) = Ok (l', p).
Proof.
  intros H HR Hc. destruct (layouts e e' H) as (ts & ts' & ws & L & L' & E & Hp & Hp').
  destruct ts as [|t0 ts0] eqn:Ets.
  { destruct L as (_ & _ & _ & _ & _ & _ & F). cbn in F. unfold check_features, max_feature in Hc. destruct (e_feature e); discriminate. }
  rewrite <- Ets in *. assert (Hne : ts <> []) by (rewrite Ets; discriminate).
  destruct (C37_check_lemma e ts ws d L Hne) as [[C _]|[_ W]]; [congruence|].
  assert (HC : forall row, In row (ds_X d) -> covers row ts).
  { intros row Hr. unfold rows_fit in HR. rewrite Forall_forall in HR. eapply (covers_of_check e ts ws); eauto. }
  assert (HC' : forall row, In row (ds_X d) -> covers row ts') by (intros row Hr; eapply covers_erase; eauto).
  split; [eapply same_trees_same_scores; eauto; [apply L|apply L']|].
  eexists. eexists. eexists. split; [apply (C32_lemma e ts ws); [apply L|exact HC]|].
  rewrite (C32_lemma e' ts' ws); [|apply L'|exact HC']. do 2 f_equal. apply map_ext. intros row. symmetry. apply tree_scores_erase. exact E.
Qed.

Definition same_entry (p p' : obj (N:=N) * scorer N) : Prop := fst p = fst p' /\ same_scorer (snd p) (snd p').

Lemma find_same c c' o : Forall2 same_entry c c' ->
  both (fun a a' => match a, a' with Some s, Some s' => same_scorer s s' | None, None => True | _, _ => False end)
       (scorer_find digest c o) (scorer_find digest c' o).
Proof.
  induction 1 as [|[k s] [k' s'] c c' [Ek Es] _ IH]; cbn [scorer_find]; [exact I|]. cbn [fst snd] in *. subst k'.
  apply both_same. intros [|]; [exact Es|exact IH].
Qed.
Lemma store_same c c' o s s' : Forall2 same_entry c c' -> same_scorer s s' ->
  both (Forall2 same_entry) (scorer_store digest c o s) (scorer_store digest c' o s').
Proof.
  intros H Hs. induction H as [|[k u] [k' u'] c c' [Ek Eu] Hc IH]; cbn [scorer_store].
  - cbn. constructor; [split; auto|constructor].
  - cbn [fst snd] in *. subst k'. apply both_same. intros [|].
    + cbn. constructor; [split; auto|exact Hc].
    + eapply both_bind; [exact IH|]. intros a a' Ha. cbn. constructor; [split; auto|exact Ha].
Qed.

Lemma adjust_same (m m' : model N) det s s' : m_lr m = m_lr m' -> m_base m = m_base m' -> same_scorer s s' -> same_scorer (adjust m det s) (adjust m' det s').
Proof.
  intros E1 E2 (H1 & H2 & H3). unfold adjust. rewrite <- E1, <- E2. unfold same_scorer.
  destruct (truthy (m_base m)), (neqb (m_lr m) none); cbn [sc_y sc_partial sc_leaves]; rewrite ?H1, ?H2; auto.
Qed.
Lemma answer_same det (s s' : scorer N) : same_scorer s s' -> same_answer (answer_of det s) (answer_of det s').
Proof. intros (H1 & H2 & _). destruct det; cbn; auto. Qed.

Lemma scorer_score_same (e e' : ensemble N) (d : dataset N) det : same_trees e e' -> rows_fit d -> check_features e d = Ok tt ->
  both (fun p p' => same_scorer (fst p) (fst p')) (scorer_score rowsum e (ds_X d) new_scorer det) (scorer_score rowsum e' (ds_X d) new_scorer det).
Proof.
  intros H HR Hc. destruct (scoring_same e e' d H HR Hc) as (Eb & l & l' & p & E1 & E2). unfold scorer_score, new_scorer. cbn [sc_y sc_leaves is_some].
  destruct det; cbn [negb andb orb].
  - rewrite E1, E2. cbn. repeat split.
  - rewrite <- Eb. apply both_same. intros y. cbn. repeat split.
Qed.

(** The miss of the cache. *)
Definition keep (m : model N) (o : obj) (cache : bool) (s : scorer N) : res (model N) :=
  if cache then do c <- scorer_store digest (m_cache m) o s; Ok (mkModel (m_ens m) (m_lr m) (m_base m) c) else Ok m.
Definition miss (m : model N) (o : obj) (det cache : bool) : model N * res answer :=
  match keep m o cache new_scorer with
  | Err e => (m, Err e)
  | Ok m1 => match scorer_score rowsum (m_ens m) (ds_X (snd o)) new_scorer det with
      | Err e => (m1, Err e)
      | Ok (s, _) => match keep m o cache (adjust m det s) with
          | Err e => (m1, Err e) | Ok m2 => (m2, Ok (answer_of det (adjust m det s))) end
      end
  end.
Lemma score_cases m o det cache : score rowsum digest m o det cache =
  match (do _ <- check_features (m_ens m) (snd o); scorer_find digest (m_cache m) o) with
  | Err e => (m, Err e)
  | Ok found => match (match found with None => None | Some s => if det && negb (is_some (sc_partial s)) then None else Some s end) with
      | Some s => (m, Ok (answer_of det s))
      | None => miss m o det cache
      end
  end.
Proof. reflexivity. Qed.

Lemma keep_same m m' o cache s s' : twins m m' -> same_scorer s s' -> both twins (keep m o cache s) (keep m' o cache s').
Proof.
  intros T Hs. pose proof T as (HT & Hlr & Hb & Hc). unfold keep. destruct cache; [|exact T].
  eapply both_bind; [apply store_same; eauto|]. intros c c' Hcc. split; auto.
Qed.

Lemma miss_same m m' o det cache : twins m m' -> rows_fit (snd o) -> check_features (m_ens m) (snd o) = Ok tt ->
  twins (fst (miss m o det cache)) (fst (miss m' o det cache)) /\ both same_answer (snd (miss m o det cache)) (snd (miss m' o det cache)).
Proof.
  intros T HR Ec. pose proof T as (HT & Hlr & Hb & Hc). unfold miss.
  assert (G0 := keep_same m m' o cache new_scorer new_scorer T (conj eq_refl (conj eq_refl eq_refl))).
  destruct (keep m o cache new_scorer) as [m1|e1], (keep m' o cache new_scorer) as [m1'|e1']; cbn [both] in G0; try contradiction;
    [|cbn; split; [exact T|exact G0]].
  assert (S0 := scorer_score_same (m_ens m) (m_ens m') (snd o) det HT HR Ec).
  destruct (scorer_score rowsum (m_ens m) (ds_X (snd o)) new_scorer det) as [[s y]|e2],
    (scorer_score rowsum (m_ens m') (ds_X (snd o)) new_scorer det) as [[s' y']|e2']; cbn [both fst snd] in S0; try contradiction;
    [|cbn; split; [exact G0|exact S0]].
  assert (A := adjust_same m m' det s s' Hlr Hb S0). assert (G1 := keep_same m m' o cache _ _ T A).
  destruct (keep m o cache (adjust m det s)) as [m2|e3], (keep m' o cache (adjust m' det s')) as [m2'|e3'];
    cbn [both] in G1; try contradiction; cbn [fst snd both].
  - split; [exact G1|]. apply answer_same. exact A.
  - split; [exact G0|exact G1].
Qed.

(** The two calls end in the same way and leave twins. *)
Theorem score_same m m' o det cache : twins m m' -> rows_fit (snd o) ->
  twins (fst (score rowsum digest m o det cache)) (fst (score rowsum digest m' o det cache)) /\
  both same_answer (snd (score rowsum digest m o det cache)) (snd (score rowsum digest m' o det cache)).
Proof.
  intros T HR. pose proof T as (HT & Hlr & Hb & Hc). rewrite !score_cases. rewrite <- (check_same _ _ (snd o) HT).
  destruct (check_features (m_ens m) (snd o)) as [[]|er] eqn:Ec; cbn [bind]; [|cbn; split; [exact T|reflexivity]].
  assert (F := find_same (m_cache m) (m_cache m') o Hc).
  destruct (scorer_find digest (m_cache m) o) as [f|er], (scorer_find digest (m_cache m') o) as [f'|er']; cbn [both] in F; try contradiction;
    [|cbn; split; [exact T|exact F]].
  destruct f as [s|], f' as [s'|]; try contradiction; [|apply miss_same; auto].
  pose proof F as (F1 & F2 & F3). rewrite <- F2. destruct (det && negb (is_some (sc_partial s))); [apply miss_same; auto|].
  cbn [fst snd both]. split; [exact T|]. apply answer_same. exact F.
Qed.
End Score.
