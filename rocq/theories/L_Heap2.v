(** Scoring on the heap is scoring of M_Ensemble.v, when the remembered hashes are right. *)
From Coq Require Import List ZArith Lia Bool.
From Verif Require Import Base Lists Num M_Dataset M_NDCG M_Ensemble M_Heap S_Heap L_Heap.
Import ListNotations.

Section Score.
Context {N : num}.
Variable rowsum : list N -> N.
Variable digest : list (list N) -> list N -> list Z -> Z.
Implicit Types st : state N.
Implicit Types h : heap N.

(** ** In-place updates *)
Lemma nth_write h x b y : x < length h -> nth_error (write h x b) y = if Nat.eqb x y then Some b else nth_error h y.
Proof.
  intros H. unfold write. rewrite nth_error_upd. destruct (Nat.eqb_spec x y) as [<-|]; [|reflexivity].
  apply Nat.ltb_lt in H. rewrite H. reflexivity.
Qed.

Definition apart h (s : sobj) : Prop := NoDup (arrays_of_scorer s) /\ forall x, In x (arrays_of_scorer s) -> x < length h.

Lemma update_y_of f h s : apart h s ->
  scorer_of (update_y f h s) s
    = mkScorer (option_map f (sc_y (scorer_of h s))) (sc_partial (scorer_of h s)) (sc_leaves (scorer_of h s)).
Proof.
  intros [D B]. unfold update_y. destruct s as [[y|] p l]; cbn [s_y]; [|reflexivity].
  assert (Hy : y < length h) by (apply B; left; reflexivity).
  unfold scorer_of. cbn [s_y s_partial s_leaves sc_y sc_partial sc_leaves option_map].
  unfold arrays_of_scorer in D. cbn [s_y s_partial s_leaves opt_list] in D. inversion D as [|? ? Hn _]; subst.
  rewrite in_app_iff in Hn.
  f_equal.
  - unfold floats at 1. rewrite nth_write, Nat.eqb_refl by auto. reflexivity.
  - destruct p as [p|]; [|reflexivity]. cbn [option_map]. f_equal. unfold rows. rewrite nth_write by auto.
    destruct (Nat.eqb_spec y p) as [<-|]; [|reflexivity]. exfalso. apply Hn. left. left. reflexivity.
  - destruct l as [l|]; [|reflexivity]. cbn [option_map]. f_equal. unfold int_rows. rewrite nth_write by auto.
    destruct (Nat.eqb_spec y l) as [<-|]; [|reflexivity]. exfalso. apply Hn. right. left. reflexivity.
Qed.

Lemma update_partial_of f h s : apart h s ->
  scorer_of (update_partial f h s) s
    = mkScorer (sc_y (scorer_of h s)) (option_map f (sc_partial (scorer_of h s))) (sc_leaves (scorer_of h s)).
Proof.
  intros [D B]. unfold update_partial. destruct s as [y [p|] l]; cbn [s_partial]; [|reflexivity].
  assert (Hp : p < length h) by (apply B; unfold arrays_of_scorer; rewrite !in_app_iff; right; left; left; reflexivity).
  unfold scorer_of. cbn [s_y s_partial s_leaves sc_y sc_partial sc_leaves option_map].
  unfold arrays_of_scorer in D. cbn [s_y s_partial s_leaves opt_list] in D.
  apply NoDup_remove in D. destruct D as [_ D]. rewrite in_app_iff in D.
  f_equal.
  - destruct y as [y|]; [|reflexivity]. cbn [option_map]. f_equal. unfold floats. rewrite nth_write by auto.
    destruct (Nat.eqb_spec p y) as [<-|]; [|reflexivity]. exfalso. apply D. left. left. reflexivity.
  - unfold rows at 1. rewrite nth_write, Nat.eqb_refl by auto. reflexivity.
  - destruct l as [l|]; [|reflexivity]. cbn [option_map]. f_equal. unfold int_rows. rewrite nth_write by auto.
    destruct (Nat.eqb_spec p l) as [<-|]; [|reflexivity]. exfalso. apply D. right. left. reflexivity.
Qed.

Lemma update_y_length f h s : length (update_y f h s) = length h.
Proof. unfold update_y, write. destruct (s_y s); [apply upd_length|reflexivity]. Qed.
Lemma update_partial_length f h s : length (update_partial f h s) = length h.
Proof. unfold update_partial, write. destruct (s_partial s); [apply upd_length|reflexivity]. Qed.
Lemma scale_length lr det h s : length (scale_in_place lr det h s) = length h.
Proof.
  unfold scale_in_place. destruct (neqb lr none); [reflexivity|].
  destruct det; rewrite ?update_partial_length, update_y_length; reflexivity.
Qed.
Lemma shift_length b det h s : length (shift_in_place b det h s) = length h.
Proof.
  unfold shift_in_place. destruct (truthy b); [|reflexivity].
  destruct det; rewrite ?update_partial_length, update_y_length; reflexivity.
Qed.
Lemma apart_length h h' s : length h' = length h -> apart h s -> apart h' s.
Proof. intros E [A B]. split; [exact A|]. intros x Hx. rewrite E. auto. Qed.

Lemma scale_of lr det h s : apart h s ->
  scorer_of (scale_in_place lr det h s) s
  = if neqb lr none then scorer_of h s
    else mkScorer (option_map (map (fun v => nf32 (nmul v lr))) (sc_y (scorer_of h s)))
           (if det then option_map (map (map (fun v => nf32 (nmul v lr)))) (sc_partial (scorer_of h s))
            else sc_partial (scorer_of h s)) (sc_leaves (scorer_of h s)).
Proof.
  intros A. unfold scale_in_place. destruct (neqb lr none); [reflexivity|].
  destruct det.
  - rewrite update_partial_of by (eapply apart_length; [apply update_y_length|exact A]).
    rewrite update_y_of by exact A. reflexivity.
  - apply update_y_of; exact A.
Qed.
Lemma shift_of base det h s : apart h s ->
  scorer_of (shift_in_place base det h s) s
  = match truthy base with
    | None => scorer_of h s
    | Some b => mkScorer (option_map (map (fun v => nf32 (nadd v b))) (sc_y (scorer_of h s)))
           (if det then option_map (map (add_first b)) (sc_partial (scorer_of h s))
            else sc_partial (scorer_of h s)) (sc_leaves (scorer_of h s))
    end.
Proof.
  intros A. unfold shift_in_place. destruct (truthy base) as [b|]; [|reflexivity].
  destruct det.
  - rewrite update_partial_of by (eapply apart_length; [apply update_y_length|exact A]).
    rewrite update_y_of by exact A. reflexivity.
  - apply update_y_of; exact A.
Qed.
Lemma adjust_of (m : model N) det h s : apart h s ->
  scorer_of (shift_in_place (m_base m) det (scale_in_place (m_lr m) det h s) s) s
    = adjust m det (scorer_of h s).
Proof.
  intros A. rewrite shift_of by (eapply apart_length; [apply scale_length|exact A]).
  rewrite scale_of by exact A. reflexivity.
Qed.

Lemma update_y_keeps h0 f h s : keeps h0 h -> (forall x, In x (arrays_of_scorer s) -> length h0 <= x) ->
  keeps h0 (update_y f h s).
Proof.
  intros K H. unfold update_y. destruct s as [[y|] p l]; cbn [s_y]; [|exact K].
  apply keeps_write; [exact K|]. apply H. left. reflexivity.
Qed.
Lemma update_partial_keeps h0 f h s : keeps h0 h -> (forall x, In x (arrays_of_scorer s) -> length h0 <= x) ->
  keeps h0 (update_partial f h s).
Proof.
  intros K H. unfold update_partial. destruct s as [y [p|] l]; cbn [s_partial]; [|exact K].
  apply keeps_write; [exact K|]. apply H. unfold arrays_of_scorer. rewrite !in_app_iff. right; left; left. reflexivity.
Qed.
Lemma adjust_keeps h0 lr base det h s : keeps h0 h -> (forall x, In x (arrays_of_scorer s) -> length h0 <= x) ->
  keeps h0 (shift_in_place base det (scale_in_place lr det h s) s).
Proof.
  intros K H. unfold shift_in_place, scale_in_place.
  destruct (truthy base), (neqb lr none), det;
    repeat first [apply update_partial_keeps | apply update_y_keeps]; auto.
Qed.

(** ** Filling a scorer *)
Lemma fill_ok h e X det h' s : fill rowsum h e X det = Ok (h', s) ->
  keeps h h' /\ (forall x, In x (arrays_of_scorer s) -> length h <= x) /\ apart h' s /\
  (exists y, scorer_score rowsum e X new_scorer det = Ok (scorer_of h' s, y)) /\
  is_some (s_partial s) = det.
Proof.
  unfold fill, scorer_score. cbn [sc_y sc_partial sc_leaves new_scorer is_some].
  rewrite !andb_false_r. cbn [orb]. destruct det.
  - destruct (detailed_scoring e X) as [[l p]|er]; cbn [bind alloc]; [|discriminate].
    unfold alloc. cbn [fst snd]. intros E. injection E as <- <-.
    set (h2 := (h ++ [IntRows l]) ++ [Rows p]).
    assert (L2 : length h2 = S (S (length h))) by (unfold h2; rewrite !app_length1; reflexivity).
    assert (Er : rows h2 (length (h ++ [IntRows l])) = p).
    { unfold rows, h2. rewrite nth_app_last. reflexivity. }
    rewrite Er. unfold arrays_of_scorer. cbn [s_y s_partial s_leaves opt_list app].
    rewrite app_length1.
    split; [unfold h2; rewrite <- !app_assoc; apply keeps_app|].
    split; [intros x [<-|[<-|[<-|[]]]]; lia|].
    split; [|split; [|reflexivity]].
    + split; unfold arrays_of_scorer; cbn [s_y s_partial s_leaves opt_list app].
      * constructor; [intros [H|[H|[]]]; lia|]. constructor; [intros [H|[]]; lia|]. constructor; [intros []|constructor].
      * rewrite app_length1. intros x [<-|[<-|[<-|[]]]]; lia.
    + eexists. unfold scorer_of. cbn [s_y s_partial s_leaves option_map].
      unfold floats. rewrite nth_app_last. unfold rows, int_rows.
      assert (E2 : nth_error (h2 ++ [Floats (map rowsum p)]) (S (length h)) = Some (Rows p)).
      { rewrite nth_error_app1 by lia. unfold h2. rewrite <- (app_length1 h (IntRows l)). apply nth_app_last. }
      assert (E3 : nth_error (h2 ++ [Floats (map rowsum p)]) (length h) = Some (IntRows l)).
      { apply nth_app_3. }
      rewrite E2, E3. reflexivity.
  - destruct (basic_scoring e X) as [y|er]; cbn [bind alloc]; [|discriminate].
    unfold alloc. intros E. injection E as <- <-. unfold arrays_of_scorer. cbn [s_y s_partial s_leaves opt_list app].
    split; [apply keeps_app|]. split; [intros x [<-|[]]; lia|]. split; [|split; [|reflexivity]].
    + split; unfold arrays_of_scorer; cbn [s_y s_partial s_leaves opt_list app].
      * constructor; [intros []|constructor].
      * rewrite app_length1. intros x [<-|[]]; lia.
    + eexists. unfold scorer_of. cbn [s_y s_partial s_leaves option_map]. unfold floats. rewrite nth_app_last. reflexivity.
Qed.
Lemma fill_err h e X det er : fill rowsum h e X det = Err er ->
  scorer_score rowsum e X new_scorer det = Err er.
Proof.
  unfold fill, scorer_score. cbn [sc_y sc_partial sc_leaves new_scorer is_some].
  rewrite !andb_false_r. cbn [orb]. destruct det.
  - destruct (detailed_scoring e X) as [[l p]|er']; cbn [bind alloc]; [discriminate|]. intros E. injection E as <-. reflexivity.
  - destruct (basic_scoring e X) as [y|er']; cbn [bind alloc]; [discriminate|]. intros E. injection E as <-. reflexivity.
Qed.

(** ** The cache *)
Lemma key_matches_eq st k zk d : inv digest st -> k < length (dss st) -> d < length (dss st) ->
  d_hash (nth k (dss st) no_dobj) = Some zk ->
  key_matches st k zk d (ds_hash digest (dataset_at st d))
    = key_eq digest (k, dataset_at st k) (d, dataset_at st d).
Proof.
  intros [V S0] Hk Hd E. unfold key_matches, key_eq. cbn [fst snd].
  assert (zk = ds_hash digest (dataset_at st k)) as ->; [|reflexivity].
  apply S0; [apply in_nth_lt; auto|exact E].
Qed.

Lemma lookup_find st c d : inv digest st -> cache_ok st c -> d < length (dss st) ->
  scorer_find digest (map (entry_of st) c) (d, dataset_at st d)
  = match cache_lookup st c d (ds_hash digest (dataset_at st d)) with
    | Ok o => Ok (option_map (scorer_at st) o) | Err e => Err e end.
Proof.
  intros I C Hd. induction c as [|[[k zk] s] c IH]; [reflexivity|].
  cbn [map scorer_find cache_lookup]. unfold entry_of at 1. cbn [fst snd].
  destruct (C k zk s (or_introl eq_refl)) as (Hk & Hs & E).
  rewrite (key_matches_eq st k zk d I Hk Hd E).
  destruct (key_eq _ _ _) as [[|]|er]; cbn [bind]; [reflexivity| |reflexivity].
  apply IH. intros k' z' s' H. apply (C k' z' s'). right. exact H.
Qed.
Lemma lookup_in st c d z s : cache_lookup st c d z = Ok (Some s) -> exists k zk, In (k, zk, s) c.
Proof.
  induction c as [|[[k zk] s'] c IH]; cbn [cache_lookup]; [discriminate|].
  destruct (key_matches _ _ _ _ _) as [[|]|er]; cbn [bind]; [| |discriminate].
  - intros E. injection E as ->. exists k, zk. left. reflexivity.
  - intros E. destruct (IH E) as (k' & z' & H). exists k', z'. right. exact H.
Qed.
Lemma insert_in st c d z sid c' : cache_insert st c d z sid = Ok c' ->
  forall k zk s, In (k, zk, s) c' ->
    In (k, zk, s) c \/ (s = sid /\ (exists s0, In (k, zk, s0) c) \/ (k, zk, s) = (d, z, sid)).
Proof.
  revert c'. induction c as [|[[k zk] s] c IH]; cbn [cache_insert]; intros c' E.
  - injection E as <-. intros k zk s [H|[]]. right. right. auto.
  - destruct (key_matches _ _ _ _ _) as [[|]|er]; cbn [bind] in E; [| |discriminate].
    + injection E as <-. intros k1 z1 s1 [H|H].
      * injection H as <- <- <-. right. left. split; [reflexivity|]. exists s. left. reflexivity.
      * left. right. exact H.
    + destruct (cache_insert st c d z sid) as [r|er]; cbn [bind] in E; [|discriminate]. injection E as <-.
      intros k1 z1 s1 [H|H]; [left; left; exact H|].
      destruct (IH r eq_refl k1 z1 s1 H) as [H1|[[H1 [s0 H2]]|H1]].
      * left; right; exact H1.
      * right; left. split; [exact H1|]. exists s0. right; exact H2.
      * right; right; exact H1.
Qed.
Lemma insert_store st st' c d sid s : inv digest st -> cache_ok st c -> d < length (dss st) ->
  (forall x, In x c -> entry_of st' x = entry_of st x) ->
  (forall k, k < length (dss st) -> dataset_at st' k = dataset_at st k) -> scorer_at st' sid = s ->
  scorer_store digest (map (entry_of st) c) (d, dataset_at st d) s
  = match cache_insert st c d (ds_hash digest (dataset_at st d)) sid with
    | Ok c' => Ok (map (entry_of st') c') | Err e => Err e end.
Proof.
  intros I C Hd He Hds Hs. induction c as [|[[k zk] s'] c IH].
  - cbn [map scorer_store cache_insert]. unfold entry_of. cbn [fst snd]. rewrite Hds, Hs; auto.
  - cbn [map scorer_store cache_insert]. unfold entry_of at 1. cbn [fst snd].
    destruct (C k zk s' (or_introl eq_refl)) as (Hk & Hs' & E).
    rewrite (key_matches_eq st k zk d I Hk Hd E).
    assert (Hm : map (entry_of st') c = map (entry_of st) c).
    { apply map_ext_in. intros x Hx. apply He. right. exact Hx. }
    destruct (key_eq _ _ _) as [[|]|er]; cbn [bind]; [| |reflexivity].
    + cbn [map]. rewrite Hm. unfold entry_of at 2. cbn [fst snd]. rewrite Hds, Hs by auto. reflexivity.
    + rewrite IH.
      * destruct (cache_insert st c d _ sid) as [r|er]; cbn [bind]; [|reflexivity]. cbn [map].
        rewrite (He (k, zk, s')) by (left; reflexivity). reflexivity.
      * intros k' z' s1 H. apply (C k' z' s1). right. exact H.
      * intros x Hx. apply He. right. exact Hx.
Qed.

(** ** Score *)
Definition cached_ok st st' (m : nat) : Prop :=
  inv digest st' /\ grows st st' /\ length (mos st') = length (mos st) /\
  (forall j, j <> m -> mobj_at st' j = mobj_at st j) /\
  arrays_of_model (mobj_at st' m) = arrays_of_model (mobj_at st m) /\
  ensemble_of (mem st') (mobj_at st' m) = ensemble_of (mem st) (mobj_at st m) /\
  o_lr (mobj_at st' m) = o_lr (mobj_at st m) /\ o_base (mobj_at st' m) = o_base (mobj_at st m).

Lemma set_cache_at st m c j : m < length (mos st) ->
  mobj_at (set_cache st m c) j = if Nat.eqb m j then with_cache (mobj_at st m) c else mobj_at st j.
Proof.
  intros H. unfold mobj_at, set_cache. cbn [mos]. rewrite nth_upd.
  destruct (Nat.eqb_spec m j) as [<-|]; [|reflexivity]. apply Nat.ltb_lt in H. rewrite H. reflexivity.
Qed.

Lemma set_cache_inv st m c : inv digest st -> m < length (mos st) -> cache_ok st c ->
  inv digest (set_cache st m c) /\ grows st (set_cache st m c).
Proof.
  intros [(V1 & V2 & V3) S0] Hm C.
  assert (G : grows st (set_cache st m c)) by (repeat split; auto).
  split; [|exact G]. split; [|exact S0]. split; [exact V1|]. split; [exact V2|].
  unfold set_cache at 1. cbn [mos]. intros x Hx. apply in_upd in Hx. destruct Hx as [->|Hx].
  - split; [|exact C]. apply (V3 (mobj_at st m)). apply in_nth_lt; auto.
  - destruct (V3 x Hx) as [A B]. split; [exact A|exact B].
Qed.

Lemma ensemble_with_cache h m c : ensemble_of h (with_cache m c) = ensemble_of h m.
Proof. reflexivity. Qed.

Lemma scorer_placeholder st s :
  scorer_at (mkState (mem st) (dss st) (scs st ++ [s]) (mos st)) (length (scs st)) = scorer_of (mem st) s.
Proof. unfold scorer_at. cbn [scs mem]. rewrite app_nth2 by lia. rewrite Nat.sub_diag. reflexivity. Qed.

Lemma seen_of h det s : seen h (harray_of det s) = answer_of det (scorer_of h s).
Proof. destruct det; reflexivity. Qed.

Lemma fresh_score st m d det cache : inv digest st -> m < length (mos st) -> d < length (dss st) ->
  d_hash (nth d (dss st) no_dobj) = Some (ds_hash digest (dataset_at st d)) ->
  let r := score_fresh rowsum st m d (ds_hash digest (dataset_at st d)) det cache in
  cached_ok st (fst r) m /\
  (forall a x, snd r = Ok a -> In x (arrays_of_answer a) -> length (mem st) <= x) /\
  (cache = false -> o_cache (mobj_at (fst r) m) = o_cache (mobj_at st m)) /\
  (model_at (fst r) m, answer_at r) =
    (let mm := model_at st m in let o := (d, dataset_at st d) in
     let with_scorer s :=
       if cache then do c <- scorer_store digest (m_cache mm) o s; Ok (mkModel (m_ens mm) (m_lr mm) (m_base mm) c)
       else Ok mm in
     match with_scorer new_scorer with
     | Err e => (mm, Err e)
     | Ok m1 =>
         match scorer_score rowsum (m_ens mm) (ds_X (snd o)) new_scorer det with
         | Err e => (m1, Err e)
         | Ok (s, _) =>
             let s' := adjust mm det s in
             match with_scorer s' with Err e => (m1, Err e) | Ok m2 => (m2, Ok (answer_of det s')) end
         end
     end).
Proof.
  intros I Hm Hd Hh r.
  assert (IV := I). destruct IV as [V S0]. assert (V' := V). destruct V' as (V1 & V2 & V3).
  set (mo := mobj_at st m).
  assert (Hmo : In mo (mos st)) by (apply in_nth_lt; auto).
  destruct (V3 mo Hmo) as [Am Cm].
  set (z := ds_hash digest (dataset_at st d)) in *.
  set (sid := length (scs st)).
  (* the state with an empty scorer *)
  assert (IG : inv digest (mkState (mem st) (dss st) (scs st ++ [empty_sobj]) (mos st)) /\
               grows st (mkState (mem st) (dss st) (scs st ++ [empty_sobj]) (mos st))).
  { pose proof (inv_extend digest st (mem st) [] [empty_sobj] [] I (keeps_refl _)) as H.
    rewrite !app_nil_r in H. apply H.
    - intros ? [].
    - intros s [<-|[]] x [].
    - intros ? []. }
  set (sta := mkState (mem st) (dss st) (scs st ++ [empty_sobj]) (mos st)) in *.
  destruct IG as [Ia Ga].
  assert (Er : r = score_fresh rowsum st m d z det cache) by reflexivity. clearbody r.
  unfold score_fresh in Er. fold mo sid sta in Er. cbv zeta in Er.
  set (ci := if cache then cache_insert st (o_cache mo) d z sid else Ok (o_cache mo)) in Er.
  assert (Hci : forall c, ci = Ok c -> cache_ok sta c).
  { intros c Ec. unfold ci in Ec. destruct cache.
    - intros k zk s Hin. destruct (insert_in _ _ _ _ _ _ Ec k zk s Hin) as [H|[[-> [s0 H]]|H]].
      + destruct (Cm k zk s H) as (A1 & A2 & A3). cbn [dss scs sta]. rewrite app_length1. repeat split; auto; lia.
      + destruct (Cm k zk s0 H) as (A1 & A2 & A3). cbn [dss scs sta]. rewrite app_length1. repeat split; auto; unfold sid; lia.
      + injection H as -> -> ->. cbn [dss scs sta]. rewrite app_length1. repeat split; auto; unfold sid; lia.
    - injection Ec as <-. eapply cache_ok_grows; eauto. }
  (* any state extending sta in which the scorer holds s *)
  assert (Hws : forall st' s c, grows sta st' \/ (keeps (mem st) (mem st') /\ dss st' = dss st /\
                   exists so, scs st' = scs st ++ [so]) ->
                 scorer_at st' sid = s -> ci = Ok c ->
                 (if cache then scorer_store digest (map (entry_of st) (o_cache mo)) (d, dataset_at st d) s
                  else Ok (map (entry_of st) (o_cache mo))) = Ok (map (entry_of st') c)).
  { intros st' s c Hg Hs Ec.
    assert (Gst : grows st st').
    { destruct Hg as [Hg|(K & Ed & so & Es)]; [eapply grows_trans; eauto|].
      split; [exact K|]. rewrite Ed, Es. split; [lia|]. split; [intros; apply same_dobj_refl|].
      split; [rewrite app_length1; lia|]. intros i Hi. apply app_nth1; auto. }
    unfold ci in Ec. destruct cache.
    - rewrite (insert_store st st' (o_cache mo) d sid s I Cm Hd).
      + fold z. rewrite Ec. reflexivity.
      + intros [[k zk] s1] Hx. destruct (Cm k zk s1 Hx) as (A1 & A2 & _). apply entry_of_grows; auto.
      + intros k Hk. apply dataset_at_grows; auto.
      + exact Hs.
    - injection Ec as <-. rewrite (cache_grows st st'); auto. }
  change (model_at st m) with (mkModel (ensemble_of (mem st) mo) (o_lr mo) (o_base mo) (map (entry_of st) (o_cache mo))).
  cbn [m_ens m_lr m_base m_cache]. cbv zeta.
  destruct ci as [c|er] eqn:Ec.
  2:{ (* the comparison of keys raises *)
      subst r. cbn [fst snd]. split; [|split; [intros a x H; discriminate H|split; [reflexivity|]]].
      - split; [exact I|]. split; [apply grows_refl|]. repeat split; auto.
      - unfold ci in Ec. destruct cache; [|discriminate].
        rewrite (insert_store st sta (o_cache mo) d sid new_scorer I Cm Hd).
        + fold z. rewrite Ec. reflexivity.
        + intros [[k zk] s1] Hx. destruct (Cm k zk s1 Hx) as (A1 & A2 & _). apply entry_of_grows; auto.
        + intros k Hk. apply dataset_at_grows; auto.
        + apply (scorer_placeholder st empty_sobj). }
  specialize (Hci c eq_refl).
  destruct (set_cache_inv sta m c Ia Hm Hci) as [I1 G1].
  set (st1 := set_cache sta m c) in *.
  assert (Gst1 : grows st st1) by (eapply grows_trans; eauto).
  assert (Em1 : mobj_at st1 m = with_cache mo c).
  { unfold st1. rewrite set_cache_at by exact Hm. rewrite Nat.eqb_refl. reflexivity. }
  assert (Ej1 : forall j, j <> m -> mobj_at st1 j = mobj_at st j).
  { intros j Hj. unfold st1. rewrite set_cache_at by exact Hm.
    destruct (Nat.eqb_spec m j); [congruence|reflexivity]. }
  assert (Ec1 : (if cache then scorer_store digest (map (entry_of st) (o_cache mo)) (d, dataset_at st d) new_scorer
                 else Ok (map (entry_of st) (o_cache mo))) = Ok (map (entry_of st1) c)).
  { apply Hws; [left; exact G1| |reflexivity]. apply (scorer_placeholder st empty_sobj). }
  assert (Emod : forall (cc : res (list (obj (N:=N) * scorer N))) l,
     (if cache then cc else Ok (map (entry_of st) (o_cache mo))) = Ok l ->
     (if cache then do c0 <- cc; Ok (mkModel (ensemble_of (mem st) mo) (o_lr mo) (o_base mo) c0)
      else Ok (mkModel (ensemble_of (mem st) mo) (o_lr mo) (o_base mo) (map (entry_of st) (o_cache mo))))
     = Ok (mkModel (ensemble_of (mem st) mo) (o_lr mo) (o_base mo) l)).
  { intros cc l. destruct cache; intros E; [rewrite E; reflexivity|]. injection E as <-. reflexivity. }
  rewrite (Emod _ _ Ec1). cbn [snd].
  assert (Ed1 : dataset_at st1 d = dataset_at st d) by (apply dataset_at_grows; auto).
  rewrite Ed1 in Er. change (mem st1) with (mem st) in Er.
  assert (Emm : forall st', mobj_at st' m = with_cache mo c -> ensemble_of (mem st') mo = ensemble_of (mem st) mo ->
     model_at st' m = mkModel (ensemble_of (mem st) mo) (o_lr mo) (o_base mo) (map (entry_of st') c)).
  { intros st' E E'. unfold model_at, model_of. rewrite E. rewrite ensemble_with_cache, E'. reflexivity. }
  destruct (fill rowsum (mem st) (ensemble_of (mem st) mo) (ds_X (dataset_at st d)) det) as [[h s]|er] eqn:Ef.
  2:{ subst r. cbn [fst snd]. rewrite (fill_err _ _ _ _ _ Ef).
      split; [|split; [intros a x H; discriminate H|split]].
      - split; [exact I1|]. split; [exact Gst1|]. split; [unfold st1, set_cache; cbn [mos]; rewrite upd_length; reflexivity|].
        split; [exact Ej1|]. rewrite Em1. repeat split.
      - intros ->. unfold ci in Ec. injection Ec as <-. rewrite Em1. reflexivity.
      - rewrite (Emm st1 Em1 eq_refl). reflexivity. }
  destruct (fill_ok _ _ _ _ _ _ Ef) as (K & Hfresh & Hap & [y0 Hsc] & _).
  rewrite Hsc.
  set (h2 := shift_in_place (o_base mo) det (scale_in_place (o_lr mo) det h s) s) in Er.
  set (st2 := mkState h2 (dss st1) (upd (scs st1) sid s) (mos st1)) in Er.
  assert (K2 : keeps (mem st) h2) by (apply adjust_keeps; auto).
  assert (L2 : length h2 = length h) by (unfold h2; rewrite shift_length, scale_length; reflexivity).
  assert (Escs : upd (scs st1) sid s = scs st ++ [s]).
  { unfold st1, set_cache, sta. cbn [scs]. unfold sid. clear. induction (scs st) as [|x l IH]; [reflexivity|].
    cbn [length app upd]. rewrite IH. reflexivity. }
  assert (Es2 : scorer_at st2 sid = scorer_of h2 s).
  { unfold scorer_at, st2. cbn [scs mem]. rewrite Escs. unfold sid. rewrite app_nth2 by lia. rewrite Nat.sub_diag. reflexivity. }
  pose proof (adjust_of (model_of st mo) det h s Hap) as Hadj. cbn [m_base m_lr model_of] in Hadj. fold h2 in Hadj.
  unfold model_of in Hadj.
  assert (Ec2 : (if cache then scorer_store digest (map (entry_of st) (o_cache mo)) (d, dataset_at st d) (scorer_of h2 s)
                 else Ok (map (entry_of st) (o_cache mo))) = Ok (map (entry_of st2) c)).
  { apply Hws; [right|exact Es2|reflexivity]. split; [exact K2|]. split; [reflexivity|]. exists s. exact Escs. }
  rewrite <- Hadj. rewrite (Emod _ _ Ec2).
  assert (G2 : grows st st2).
  { split; [exact K2|]. cbn [dss scs st2]. rewrite Escs. split; [cbn; lia|].
    split; [intros; apply same_dobj_refl|]. split; [rewrite app_length1; lia|]. intros i Hi. apply app_nth1; auto. }
  assert (Em2 : mobj_at st2 m = with_cache mo c) by exact Em1.
  assert (Ee2 : ensemble_of (mem st2) mo = ensemble_of (mem st) mo) by (apply (ensemble_grows st st2); auto).
  subst r. cbn [fst snd]. split; [|split; [|split]].
  - split; [|split; [exact G2|]].
    + destruct I1 as [(W1 & W2 & W3) T1]. split; [split; [|split]|].
      * intros x Hx. eapply in_memory_grows; [exact G2|]. apply V1. exact Hx.
      * intros x Hx. cbn [scs st2] in Hx. rewrite Escs in Hx. apply in_app_or in Hx. destruct Hx as [Hx|[<-|[]]].
        { eapply in_memory_grows; [exact G2|]. apply V2; exact Hx. }
        { intros a Ha. cbn [mem st2]. rewrite L2. apply Hap. exact Ha. }
      * intros x Hx. destruct (W3 x Hx) as [A B]. split.
        { intros a Ha. cbn [mem st2]. destruct K2 as [K2 _]. specialize (A a Ha). change (mem st1) with (mem st) in A. lia. }
        { intros k zk s1 Hin. destruct (B k zk s1 Hin) as (B1 & B2 & B3). split; [exact B1|]. split; [|exact B3].
          cbn [scs st2]. rewrite upd_length. exact B2. }
      * intros x zz Hx Hz. cbn [mem dss st2] in *. rewrite (S0 x zz Hx Hz). f_equal. symmetry.
        apply dataset_agree. apply agree_keeps; [exact K2|]. apply V1; exact Hx.
    + split; [cbn [mos st2]; unfold st1, set_cache; cbn [mos]; rewrite upd_length; reflexivity|].
      split; [exact Ej1|]. rewrite Em2. repeat split. exact Ee2.
  - intros a x E Hx. injection E as <-. apply Hfresh. destruct det; cbn [harray_of arrays_of_answer] in Hx;
      unfold arrays_of_scorer; [exact Hx|]. apply in_or_app. left. exact Hx.
  - intros ->. unfold ci in Ec. injection Ec as <-. rewrite Em2. reflexivity.
  - f_equal; [apply (Emm st2 Em2 Ee2)|]. unfold answer_at. cbn [fst snd]. rewrite seen_of. reflexivity.
Qed.
End Score.
