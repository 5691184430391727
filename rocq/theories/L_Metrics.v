(** Ranking facts shared by the metric proofs. *)
From Coq Require Import List ZArith Lia Bool Permutation Sorted.
From Verif Require Import Base Lists Num M_Dataset M_Metrics S_Metrics.
Import ListNotations.

Section Rank.
Context {N : num}.
Implicit Types (y s : list N) (argsort : list N -> list nat).

Lemma sorts_length s idx : sorts s idx -> length idx = length s.
Proof. intros [P _]. apply Permutation_length in P. rewrite seq_length in P. auto. Qed.

Lemma sorts_bound s idx i : sorts s idx -> In i idx -> (i < length s)%nat.
Proof. intros [P _] H. apply (Permutation_in _ P) in H. apply in_seq in H. lia. Qed.

Lemma take_ok {A} (y : list A) idx d : (forall i, In i idx -> (i < length y)%nat) ->
  take y idx = Ok (map (fun i => nth i y d) idx).
Proof.
  intros H. unfold take. apply mapM_map_ok. intros i Hi. specialize (H i Hi).
  rewrite (nth_error_nth' y d H). reflexivity.
Qed.

Lemma retrieved_bound cutoff n : (retrieved cutoff n <= n)%nat.
Proof. destruct cutoff as [k|]; cbn; [|lia]. destruct (Z.ltb_spec k 0); lia. Qed.

Lemma order_eq argsort cutoff s : length (argsort s) = length s ->
  order argsort cutoff s = firstn (retrieved cutoff (length s)) (rev (argsort s)).
Proof.
  intros HL. unfold order, retrieved. destruct cutoff as [k|].
  - unfold slice_to, slice_bound. rewrite rev_length, HL. f_equal.
    destruct (Z.ltb_spec k 0); lia.
  - rewrite firstn_all2; auto. rewrite rev_length. lia.
Qed.

Lemma order_length argsort cutoff s : sorting argsort ->
  length (order argsort cutoff s) = retrieved cutoff (length s).
Proof.
  intros Hs. rewrite order_eq by (apply sorts_length, Hs). rewrite firstn_length, rev_length.
  rewrite (sorts_length _ _ (Hs s)). pose proof (retrieved_bound cutoff (length s)). lia.
Qed.

Lemma ranked_length argsort y s : sorting argsort -> length (ranked argsort y s) = length s.
Proof. intros Hs. unfold ranked. rewrite map_length, rev_length. apply sorts_length, Hs. Qed.

(** The labels the metrics look at: a prefix of the ranked labels. *)
Lemma take_order argsort cutoff y s : sorting argsort -> length y = length s ->
  take y (order argsort cutoff s) = Ok (firstn (retrieved cutoff (length s)) (ranked argsort y s)).
Proof.
  intros Hs HL. rewrite (take_ok y _ nzero).
  - rewrite order_eq by (apply sorts_length, Hs). unfold ranked. rewrite firstn_map. reflexivity.
  - intros i Hi. rewrite order_eq in Hi by (apply sorts_length, Hs). apply In_firstn in Hi.
    apply in_rev in Hi. rewrite HL. eapply sorts_bound; [apply Hs|auto].
Qed.

Lemma map_nth_seq {A} (l : list A) d : map (fun i => nth i l d) (seq 0 (length l)) = l.
Proof.
  apply nth_error_ext'. intros i. rewrite nth_error_map', nth_error_seq.
  destruct (Nat.ltb_spec i (length l)); cbn.
  - rewrite (nth_error_nth' l d H). auto.
  - symmetry. apply nth_error_None. lia.
Qed.

Lemma ranked_perm argsort y s : sorting argsort -> length y = length s -> Permutation (ranked argsort y s) y.
Proof.
  intros Hs HL. unfold ranked. destruct (Hs s) as [P _].
  etransitivity; [apply Permutation_map with (l' := seq 0 (length s))|].
  - etransitivity; [symmetry; apply Permutation_rev|auto].
  - rewrite <- HL, map_nth_seq. reflexivity.
Qed.

(** Scores along the ranking are non-increasing. *)
Lemma ranked_sorted argsort s : sorting argsort ->
  StronglySorted (fun a b => nleb b a = true) (ranked argsort s s).
Proof.
  intros Hs. unfold ranked. rewrite map_rev. destruct (Hs s) as [P SS].
  assert (HB : forall i, In i (argsort s) -> (i < length s)%nat) by (intros; eapply sorts_bound; eauto).
  revert SS HB. generalize (argsort s) as idx. clear. intros idx SS HB.
  induction SS as [|i idx SS IH F]; cbn; [constructor|].
  assert (HB' : forall i0, In i0 idx -> (i0 < length s)%nat) by (intros; apply HB; right; auto).
  specialize (IH HB'). revert IH.
  assert (G : Forall (fun v => nleb (nth i s nzero) v = true) (rev (map (fun i0 => nth i0 s nzero) idx))).
  { apply Forall_rev. apply Forall_map. rewrite Forall_forall in *. intros j Hj.
    apply (F j Hj); apply nth_error_nth'; [apply HB; left; auto|apply HB'; auto]. }
  revert G. generalize (rev (map (fun i0 => nth i0 s nzero) idx)) as l. intros l G IH.
  induction l as [|a l IHl]; cbn.
  - repeat constructor.
  - inversion IH; subst. inversion G; subst. constructor; auto.
    apply Forall_app. split; auto.
Qed.

Lemma ranked_pairs argsort y s : sorting argsort -> length y = length s ->
  combine (ranked argsort s s) (ranked argsort y s)
  = map (fun i => (nth i s nzero, nth i y nzero)) (rev (argsort s)).
Proof.
  intros. unfold ranked. generalize (rev (argsort s)). induction l; cbn; congruence.
Qed.

Lemma combine_nth_seq y s : length y = length s ->
  map (fun i => (nth i s nzero, nth i y nzero)) (seq 0 (length s)) = combine s y.
Proof.
  intros HL. transitivity (map (fun i => nth i (combine s y) (nzero, nzero)) (seq 0 (length (combine s y)))).
  - rewrite combine_length, HL, Nat.min_id. apply map_ext_in. intros i Hi. rewrite combine_nth; auto.
  - apply map_nth_seq.
Qed.

(** With no ties the ranked list of (score, label) pairs is determined by the set of rows. *)
Lemma ranked_unique argsort argsort' y s y' s' : total_order N ->
  sorting argsort -> sorting argsort' ->
  length y = length s -> length y' = length s' -> no_ties s ->
  Permutation (combine s y) (combine s' y') ->
  ranked argsort y s = ranked argsort' y' s'.
Proof.
  intros TO Hs Hs' HL HL' NT HP.
  assert (E : combine (ranked argsort s s) (ranked argsort y s)
              = combine (ranked argsort' s' s') (ranked argsort' y' s')).
  { rewrite !ranked_pairs by auto.
    set (R := fun (p q : N * N) => nleb (fst q) (fst p) = true).
    assert (P1 : Permutation (map (fun i => (nth i s nzero, nth i y nzero)) (rev (argsort s))) (combine s y)).
    { rewrite <- combine_nth_seq by auto. apply Permutation_map.
      etransitivity; [symmetry; apply Permutation_rev|apply Hs]. }
    assert (P2 : Permutation (map (fun i => (nth i s' nzero, nth i y' nzero)) (rev (argsort' s'))) (combine s' y')).
    { rewrite <- combine_nth_seq by auto. apply Permutation_map.
      etransitivity; [symmetry; apply Permutation_rev|apply Hs']. }
    assert (U : forall p q, In p (combine s y) -> In q (combine s y) -> fst p = fst q -> p = q).
    { intros p q Hp Hq E. apply In_nth_error in Hp, Hq. destruct Hp as [i Hi], Hq as [j Hj].
      assert (F : forall i p, nth_error (combine s y) i = Some p -> nth_error s i = Some (fst p)).
      { clear. revert y. induction s as [|a s IH]; intros [|b y0] [|i] p; cbn; try discriminate; auto.
        - intros H. inversion H; auto.
        - apply IH. }
      assert (i = j). { eapply NT; [apply F, Hi|apply F, Hj| |]; rewrite E; apply (to_refl _ TO). }
      congruence. }
    assert (S1 : forall a yy ss, sorting a ->
        StronglySorted R (map (fun i => (nth i ss nzero, nth i yy nzero)) (rev (a ss)))).
    { intros a yy ss Ha. apply StronglySorted_intro.
      intros i j p q Hij Hp Hq.
      pose proof (ranked_sorted a ss Ha) as SS. unfold R.
      apply (@StronglySorted_nth _ _ _ i j (fst p) (fst q) SS Hij).
      + unfold ranked. rewrite nth_error_map'. rewrite nth_error_map' in Hp. destruct (nth_error (rev (a ss)) i); inversion Hp; auto.
      + unfold ranked. rewrite nth_error_map'. rewrite nth_error_map' in Hq. destruct (nth_error (rev (a ss)) j); inversion Hq; auto. }
    apply (@StronglySorted_perm_unique _ R).
    - intros p q Hp Hq A B. apply U.
      + eapply Permutation_in; eauto.
      + eapply Permutation_in; eauto.
      + apply (to_antisym _ TO); auto.
    - apply S1; auto.
    - apply S1; auto.
    - etransitivity; [apply P1|]. etransitivity; [apply HP|]. symmetry; apply P2. }
  assert (Sp : forall (a b a' b' : list N), length a = length b -> length a' = length b' ->
             combine a b = combine a' b' -> b = b').
  { induction a as [|x a IHa]; intros [|b0 b] [|x' a'] [|b0' b']; cbn; try discriminate; auto.
    intros H1 H2 H3. inversion H3. f_equal. eapply IHa; [| |eauto]; lia. }
  eapply Sp; [| |exact E]; rewrite !ranked_length; auto.
Qed.

(** Ranking the labels by themselves does not depend on ties. *)
Lemma ranked_self_unique argsort argsort' y y' : total_order N -> sorting argsort -> sorting argsort' ->
  Permutation y y' -> ranked argsort y y = ranked argsort' y' y'.
Proof.
  intros TO Hs Hs' HP. eapply (@StronglySorted_perm_unique _ (fun a b => nleb b a = true)).
  - intros. apply (to_antisym _ TO); auto.
  - apply ranked_sorted; auto.
  - apply ranked_sorted; auto.
  - rewrite !ranked_perm; auto.
Qed.

(** [retrieved] and list length facts. *)
Lemma firstn_retrieved_length argsort cutoff y s : sorting argsort ->
  length (firstn (retrieved cutoff (length s)) (ranked argsort y s)) = retrieved cutoff (length s).
Proof.
  intros Hs. rewrite firstn_length, ranked_length by auto.
  pose proof (retrieved_bound cutoff (length s)). lia.
Qed.

(** MRR's loop reads the labels lazily; same as searching the ranked labels. *)
Fixpoint find_pos (p : N -> bool) (i : nat) (l : list N) : option nat :=
  match l with [] => None | v :: l' => if p v then Some i else find_pos p (S i) l' end.

Lemma mrr_loop_eq thr y idx i l : take y idx = Ok l ->
  mrr_loop thr y i idx = Ok (find_pos (fun v => nleb thr v) i l).
Proof.
  revert i l. unfold take. induction idx as [|j idx IH]; cbn; intros i l H.
  - inversion H; auto.
  - destruct (nth_error y j) as [v|]; cbn in *; [|discriminate].
    destruct (mapM _ idx) as [l'|] eqn:E; cbn in H; [|discriminate]. inversion H; subst. cbn.
    destruct (nleb thr v); auto.
Qed.

(** Every ranking metric is a function of the retrieved labels, the number of
    labels, and permutation-invariant facts about the labels. *)
Definition top_value (m : metric N) (l : list N) (y : list N) (ideal : list N) : res N :=
  match m with
  | Precision _ thr =>
      if Nat.eqb (length l) 0 then Err ZeroDivisionError
      else Ok (ndiv (nofnat (count (fun v => nleb thr v) l)) (nofnat (length l)))
  | PrecisionMax _ =>
      do mx <- nmax y;
      if Nat.eqb (length l) 0 then Err ZeroDivisionError
      else Ok (ndiv (nofnat (count (fun v => nleb mx v) l)) (nofnat (length l)))
  | Recall norel _ thr =>
      if negb (Nat.eqb (count (fun v => nleb thr v) y) 0)
      then Ok (ndiv (nofnat (count (fun v => nleb thr v) l)) (nofnat (count (fun v => nleb thr v) y)))
      else Ok norel
  | MRR _ thr => match find_pos (fun v => nleb thr v) 0 l with
                 | Some i => Ok (ndiv none (nadd (nofnat i) none)) | None => Ok nzero end
  | MAP norel _ =>
      let '(_, rel, acc) := fold_left map_step l (0%nat, 0%nat, nzero) in
      let nz := count (fun v => negb (neqb v nzero)) y in
      if (0 <? rel)%nat
      then (if Nat.eqb (Nat.min (length l) nz) 0 then Err ZeroDivisionError
            else Ok (ndiv acc (nofnat (Nat.min (length l) nz))))
      else Ok norel
  | DCG OtherImpl _ => Err UnboundLocalError
  | DCG g _ => Ok (nsum (map (fun p => ndiv (gain g (snd p)) (discount (fst p)))
                             (combine (seq 0 (length l)) l)))
  | NDCGfresh norel OtherImpl _ => Err UnboundLocalError
  | NDCGfresh norel g _ =>
      Ok (ndcg_of norel
            (nsum (map (fun p => ndiv (gain g (snd p)) (discount (fst p))) (combine (seq 0 (length l)) l)))
            (nsum (map (fun p => ndiv (gain g (snd p)) (discount (fst p))) (combine (seq 0 (length ideal)) ideal))))
  | ERR _ => do mx <- nmax y; Ok (snd (fold_left (err_step mx) l (0%nat, none, nzero)))
  | Pfound _ pa => do mx <- nmax y; Ok (snd (fold_left (pfound_step pa mx) l (0%nat, none, nzero)))
  | RBP _ thr p =>
      Ok (nmul (nsub none p)
           (nsum (map (fun q => nmul (if nleb thr (snd q) then none else nzero) (npow p (fst q)))
                      (combine (seq 0 (length l)) l))))
  | RMSE _ => Err RuntimeError
  end.

Definition cutoff_of (m : metric N) : option Z :=
  match m with
  | Precision k _ | PrecisionMax k | Recall _ k _ | MRR k _ | MAP _ k | DCG _ k
  | NDCGfresh _ _ k | ERR k | Pfound k _ | RBP k _ _ | RMSE k => k
  end.

Lemma eval_top argsort m y s : sorting argsort -> length y = length s -> is_ranking m = true ->
  eval_per_query argsort m y s
  = top_value m (firstn (retrieved (cutoff_of m) (length s)) (ranked argsort y s)) y
                (firstn (retrieved (cutoff_of m) (length y)) (ranked argsort y y)).
Proof.
  intros Hs HL Hr. destruct m; cbn [eval_per_query cutoff_of is_ranking] in *; try discriminate.
  - unfold precision. rewrite take_order by auto. rewrite order_length by auto.
    cbn [bind top_value]. rewrite firstn_retrieved_length by auto. reflexivity.
  - unfold precision_max. rewrite take_order by auto. rewrite order_length by auto.
    cbn [bind top_value]. rewrite firstn_retrieved_length by auto. reflexivity.
  - unfold recall. rewrite take_order by auto. reflexivity.
  - unfold mrr. erewrite mrr_loop_eq by (apply take_order; auto). reflexivity.
  - unfold average_precision. rewrite take_order by auto. rewrite order_length by auto.
    cbn [bind top_value]. rewrite firstn_retrieved_length by auto. reflexivity.
  - unfold dcg. rewrite take_order by auto. destruct g; reflexivity.
  - unfold ndcg_fresh, dcg. rewrite !take_order by auto. destruct g; reflexivity.
  - unfold err. rewrite take_order by auto. reflexivity.
  - unfold pfound. rewrite take_order by auto. reflexivity.
  - unfold rbp. rewrite take_order by auto. reflexivity.
Qed.

(** ** C17 *)
Lemma C17_lemma argsort (f : N -> N) m y s : sorting argsort -> comparison_based argsort ->
  (forall a b, nleb (f a) (f b) = nleb a b) -> length y = length s -> is_ranking m = true ->
  eval_per_query argsort m y (map f s) = eval_per_query argsort m y s.
Proof.
  intros Hs Hc Hf HL Hr. rewrite !eval_top by (rewrite ?map_length; auto).
  assert (E : argsort (map f s) = argsort s).
  { apply Hc; [apply map_length|]. intros i j a b a' b' Hi Hj Hi' Hj'.
    rewrite nth_error_map' in Hi, Hj. rewrite Hi' in Hi. rewrite Hj' in Hj. inversion Hi; inversion Hj; subst. apply Hf. }
  unfold ranked at 1. rewrite E, map_length. reflexivity.
Qed.

Lemma nth_error_nth_some {A} (l : list A) i a d : nth_error l i = Some a -> nth i l d = a.
Proof. apply nth_error_nth. Qed.

(** ** C18 *)
Lemma filter_count_perm {A} (p : A -> bool) l l' : Permutation l l' -> count p l = count p l'.
Proof. intros. unfold count. apply Permutation_length. apply Permutation_filter. auto. Qed.

Lemma nmax_spec y m : total_order N -> nmax y = Ok m -> In m y /\ forall v, In v y -> nleb v m = true.
Proof.
  intros TO. destruct y as [|x xs]; cbn; [discriminate|]. intros H. inversion H; subst m. clear H.
  revert x. induction xs as [|v xs IH]; intros x; cbn.
  - split; auto. intros v [<-|[]]. apply TO.
  - replace (nleb v v) with true by (symmetry; destruct (to_total _ TO v v); assumption). cbn [negb]. rewrite orb_false_r.
    destruct (IH (if nleb x v then v else x)) as [A B]. split.
    + destruct A as [A|A]; [|auto]. destruct (nleb x v); auto.
    + intros w [<-|[<-|Hw]].
      * destruct (nleb x v) eqn:E.
        { eapply to_trans; [exact TO|exact E|]. apply B. left; auto. }
        { apply B. left; auto. }
      * destruct (nleb x v) eqn:E.
        { apply B. left; auto. }
        { destruct (to_total _ TO x v) as [F|F]; [congruence|]. eapply to_trans; [exact TO|exact F|]. apply B. left; auto. }
      * apply B. right; auto.
Qed.

Lemma nmax_perm y y' : total_order N -> Permutation y y' -> nmax y = nmax y'.
Proof.
  intros TO HP. destruct y as [|a y], y' as [|b y'].
  - reflexivity.
  - apply Permutation_nil in HP. discriminate.
  - symmetry in HP. apply Permutation_nil in HP. discriminate.
  - destruct (nmax (a :: y)) as [m|] eqn:E; [|discriminate].
    destruct (nmax (b :: y')) as [m'|] eqn:E'; [|discriminate].
    apply (nmax_spec _ _ TO) in E, E'. destruct E as [I1 M1], E' as [I2 M2].
    f_equal. apply (to_antisym _ TO).
    + apply M2. eapply Permutation_in; eauto.
    + apply M1. eapply Permutation_in; [symmetry|]; eauto.
Qed.

Lemma top_value_perm m l y y' i : total_order N -> Permutation y y' ->
  top_value m l y i = top_value m l y' i.
Proof.
  intros TO HP. destruct m; cbn; auto.
  - rewrite (nmax_perm y y') by auto. auto.
  - rewrite (filter_count_perm _ y y') by auto. auto.
  - rewrite (filter_count_perm _ y y') by auto. auto.
  - rewrite (nmax_perm y y') by auto. auto.
  - rewrite (nmax_perm y y') by auto. auto.
Qed.

Lemma combine_snd_perm (s y s' y' : list N) : length y = length s -> length y' = length s' ->
  Permutation (combine s y) (combine s' y') -> Permutation y y'.
Proof.
  intros H1 H2 HP. apply (Permutation_map snd) in HP.
  assert (E : forall (a b : list N), length b = length a -> map snd (combine a b) = b).
  { induction a; intros [|v b]; cbn; try discriminate; auto. intros. f_equal. apply IHa. lia. }
  rewrite !E in HP; auto.
Qed.

Lemma C18_lemma argsort argsort' m y s y' s' : total_order N ->
  sorting argsort -> sorting argsort' ->
  length y = length s -> length y' = length s' -> no_ties s ->
  Permutation (combine s y) (combine s' y') -> is_ranking m = true ->
  eval_per_query argsort m y s = eval_per_query argsort' m y' s'.
Proof.
  intros TO Hs Hs' HL HL' NT HP Hr. rewrite !eval_top by auto.
  pose proof (combine_snd_perm _ _ _ _ HL HL' HP) as PY.
  rewrite (ranked_unique argsort argsort' y s y' s') by auto.
  rewrite (ranked_self_unique argsort argsort' y y') by auto.
  apply Permutation_length in PY as LY.
  replace (length s') with (length s) by lia. rewrite LY.
  apply top_value_perm; auto.
Qed.

(** ** C19 *)
Lemma C19_large_lemma argsort m y s k : sorting argsort -> length y = length s -> is_ranking m = true ->
  (Z.of_nat (length s) <= k)%Z ->
  eval_per_query argsort (with_cutoff (Some k) m) y s = eval_per_query argsort (with_cutoff None m) y s.
Proof.
  intros Hs HL Hr Hk.
  assert (R1 : is_ranking (with_cutoff (Some k) m) = true) by (destruct m; auto).
  assert (R2 : is_ranking (with_cutoff None m) = true) by (destruct m; auto).
  rewrite !eval_top by auto.
  assert (E1 : cutoff_of (with_cutoff (Some k) m) = Some k) by (destruct m; auto).
  assert (E2 : cutoff_of (with_cutoff None m) = None) by (destruct m; auto).
  rewrite E1, E2, HL.
  replace (retrieved (Some k) (length s)) with (length s).
  2:{ unfold retrieved. destruct (Z.ltb_spec k 0); lia. }
  change (retrieved None (length s)) with (length s).
  destruct m; reflexivity.
Qed.

Lemma C19_top_lemma argsort argsort' m y s y' s' k : sorting argsort -> sorting argsort' ->
  length y = length s -> length y' = length s' -> top_only m = true -> (0 <= k)%Z ->
  firstn (Z.to_nat k) (ranked argsort y s) = firstn (Z.to_nat k) (ranked argsort' y' s') ->
  eval_per_query argsort (with_cutoff (Some k) m) y s = eval_per_query argsort' (with_cutoff (Some k) m) y' s'.
Proof.
  intros Hs Hs' HL HL' Ht Hk E.
  assert (R1 : is_ranking (with_cutoff (Some k) m) = true) by (destruct m; auto; discriminate).
  rewrite !eval_top by auto.
  assert (E1 : cutoff_of (with_cutoff (Some k) m) = Some k) by (destruct m; auto). rewrite E1.
  assert (F : forall (a : list N -> list nat) (yy ss : list N), sorting a -> firstn (retrieved (Some k) (length ss)) (ranked a yy ss)
                                = firstn (Z.to_nat k) (ranked a yy ss)).
  { intros a yy ss Ha. unfold retrieved. destruct (Z.ltb_spec k 0); [lia|].
    destruct (Nat.le_ge_cases (Z.to_nat k) (length ss)).
    - rewrite Nat.min_l by auto. auto.
    - rewrite Nat.min_r by auto. rewrite !firstn_all2; auto; rewrite ranked_length; auto. }
  rewrite !F by auto. rewrite E. destruct m; try discriminate; reflexivity.
Qed.

End Rank.

(** The stable insertion argsort is a correct, comparison based argsort. *)
Lemma insert_map {A B} (f : A -> B) (la : A -> A -> bool) (lb : B -> B -> bool) x l :
  (forall z, In z l -> la x z = lb (f x) (f z)) -> map f (insert la x l) = insert lb (f x) (map f l).
Proof.
  induction l as [|z l IH]; cbn; intros H; auto. rewrite <- (H z) by auto.
  destruct (la x z); cbn; auto. f_equal. apply IH. auto.
Qed.

Lemma isort_map {A B} (f : A -> B) (la : A -> A -> bool) (lb : B -> B -> bool) l :
  (forall x z, In x l -> In z l -> la x z = lb (f x) (f z)) -> map f (isort la l) = isort lb (map f l).
Proof.
  induction l as [|x l IH]; cbn; intros H; auto. rewrite (insert_map _ _ lb).
  - f_equal. apply IH. auto.
  - intros z Hz. apply H; [left; auto|right]. apply (Permutation_in _ (isort_perm la l)). auto.
Qed.

Lemma stable_argsort_eq {N : num} (s : list N) :
  stable_argsort s = isort (fun i j => nleb (nth i s nzero) (nth j s nzero)) (seq 0 (length s)).
Proof.
  unfold stable_argsort. rewrite (isort_map snd _ (fun i j => nleb (nth i s nzero) (nth j s nzero))).
  - f_equal. clear. generalize 0%nat as o. induction s; intros o; cbn; auto. f_equal. auto.
  - intros [a i] [b j] H1 H2. cbn.
    assert (F : forall v i, In (v, i) (combine s (seq 0 (length s))) -> nth i s nzero = v).
    { intros v k Hk. apply In_nth_error in Hk. destruct Hk as [p Hp].
      assert (G : forall (l1 : list N) (l2 : list nat) q, nth_error (combine l1 l2) q = Some (v, k) ->
                    nth_error l1 q = Some v /\ nth_error l2 q = Some k).
      { clear. induction l1 as [|x l1 IH]; intros [|z l2] [|q]; cbn; try discriminate.
        - intros H; inversion H; auto.
        - apply IH. }
      apply G in Hp as Hp'.
      destruct Hp' as [A B]. rewrite nth_error_seq in B. destruct (p <? length s); inversion B; subst.
      apply nth_error_nth. auto. }
    rewrite (F _ _ H1), (F _ _ H2). auto.
Qed.

Lemma stable_argsort_sorting {N : num} : total_order N -> sorting (@stable_argsort N).
Proof.
  intros TO s. rewrite stable_argsort_eq. split; [apply isort_perm|].
  assert (S : StronglySorted (fun i j => nleb (nth i s nzero) (nth j s nzero) = true)
                (isort (fun i j => nleb (nth i s nzero) (nth j s nzero)) (seq 0 (length s)))).
  { apply isort_sorted.
    - intros a b. destruct (to_total _ TO (nth a s nzero) (nth b s nzero)); auto.
    - intros a b c. apply to_trans; auto. }
  eapply StronglySorted_ind with (P := fun l => StronglySorted _ l) in S; [exact S|constructor|].
  intros a l SS IH F. constructor; auto. rewrite Forall_forall in *. intros j Hj v w Hv Hw.
  rewrite <- (nth_error_nth _ _ nzero Hv), <- (nth_error_nth _ _ nzero Hw). auto.
Qed.

Lemma isort_ext {A} (la lb : A -> A -> bool) l :
  (forall x z, In x l -> In z l -> la x z = lb x z) -> isort la l = isort lb l.
Proof.
  intros H. pose proof (isort_map (fun x => x) la lb l H) as E. rewrite !map_id in E. exact E.
Qed.

Lemma stable_argsort_comparison {N : num} : comparison_based (@stable_argsort N).
Proof.
  intros s s' HL HC. rewrite !stable_argsort_eq, HL. apply isort_ext.
  intros i j Hi Hj. apply in_seq in Hi, Hj.
  eapply HC; apply nth_error_nth'; lia.
Qed.
