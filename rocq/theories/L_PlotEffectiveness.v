(** Proofs about the figures of the effectiveness analyses. *)
From Coq Require Import List ZArith QArith Qround Lia Lqa Bool Permutation.
From Verif Require Import Base Lists L_Lgbm M_PlotEffectiveness S_PlotEffectiveness.
Import ListNotations.
Local Open Scope Z_scope.

Lemma mapM_inv : forall (A B : Type) (f : A -> res B) l r, mapM f l = Ok r -> Forall2 (fun a b => f a = Ok b) l r.
Proof.
  intros A B f. induction l as [|a l IH]; intros r H; cbn [mapM] in H; [injection H as <-; constructor|].
  destruct (f a) as [b|e] eqn:E; [|discriminate]. cbn [bind] in H. destruct (mapM f l) as [bs|e] eqn:E2; [|discriminate]. injection H as <-. constructor; auto.
Qed.
Lemma forall2_numbered : forall (A B : Type) (P : nat -> A -> B -> Prop) l r a, Forall2 (fun p b => P (fst p) (snd p) b) (combine (seq a (length l)) l) r ->
  Forall2 (fun x b => exists i, P i x b) l r.
Proof.
  intros A B P. induction l as [|x l IH]; intros r a H; cbn [length seq combine] in H; inversion H; subst; constructor; [eexists; eassumption|]. eapply IH. eassumption.
Qed.
Lemma forall2_impl : forall (A B : Type) (P Q : A -> B -> Prop) l r, (forall a b, P a b -> Q a b) -> Forall2 P l r -> Forall2 Q l r.
Proof. intros A B P Q l r H F. induction F; constructor; auto. Qed.
Lemma subplots_inv : forall (A B : Type) (l : list A) (f : nat -> A -> res B) r, subplots l f = Ok r -> l <> [] /\ Forall2 (fun p b => f (fst p) (snd p) = Ok b) (numbered l) r.
Proof.
  intros A B l f r H. unfold subplots in H. destruct l as [|x l]; [discriminate|]. cbn [length Nat.eqb] in H. split; [discriminate|]. apply mapM_inv in H. exact H.
Qed.
Lemma numbered_last : forall (A B : Type) (g : B -> bool) (l : list A) r a, (1 <= length l)%nat ->
  Forall2 (fun p b => g b = is_last (a + length l) (fst p)) (combine (seq a (length l)) l) r -> exists n, map g r = repeat false n ++ [true].
Proof.
  intros A B g. induction l as [|x l IH]; intros r a H F; [cbn in H; lia|]. cbn [length seq combine] in F. inversion F as [|? b ? r' G F']; subst. cbn [fst] in G.
  destruct l as [|y l].
  - inversion F'; subst. exists 0%nat. cbn [map repeat app]. rewrite G. unfold is_last. cbn [length]. replace (S a =? a + 1)%nat with true by (symmetry; apply Nat.eqb_eq; lia). reflexivity.
  - destruct (IH r' (S a)) as (n & E).
    + cbn [length]. lia.
    + replace (S a + length (y :: l))%nat with (a + length (x :: y :: l))%nat by (cbn [length]; lia). exact F'.
    + exists (S n). cbn [map repeat app]. rewrite E, G. unfold is_last. cbn [length]. replace (S a =? a + S (S (length l)))%nat with false by (symmetry; apply Nat.eqb_neq; lia). reflexivity.
Qed.

(** The first maximum *)
Definition best_of (l : list val) (best : option (nat * Q)) : Prop :=
  match best with
  | Some (i, x) => first_largest l i x
  | None => forall v, In v l -> v = None
  end.
Lemma nth_error_snoc : forall (A : Type) (l : list A) x j y, nth_error (l ++ [x]) j = Some y -> (j < length l)%nat /\ nth_error l j = Some y \/ j = length l /\ y = x.
Proof.
  intros A l x j y H. destruct (Nat.lt_ge_cases j (length l)) as [C|C].
  - left. split; [exact C|]. rewrite nth_error_app1 in H by exact C. exact H.
  - right. rewrite nth_error_app2 in H by exact C. destruct (j - length l)%nat as [|n] eqn:E; [|destruct n; discriminate]. injection H as <-. split; [lia|reflexivity].
Qed.
Lemma nanargmax_from_spec : forall l seen best, best_of seen best -> best_of (seen ++ l) (nanargmax_from best (length seen) l).
Proof.
  induction l as [|v l IH]; intros seen best H; [rewrite app_nil_r; exact H|]. cbn [nanargmax_from].
  replace (seen ++ v :: l) with ((seen ++ [v]) ++ l) by (rewrite <- app_assoc; reflexivity). replace (S (length seen)) with (length (seen ++ [v])) by (rewrite app_length; cbn [length]; lia).
  apply IH. unfold best_of in *. destruct v as [x|].
  - destruct best as [(i, y)|].
    + destruct H as (H1 & H2 & H3). destruct (Qle_bool x y) eqn:E.
      * apply Qle_bool_iff in E. split; [rewrite nth_error_app1; [exact H1|apply nth_error_Some; rewrite H1; discriminate]|]. split.
        -- intros j z Hj. apply nth_error_snoc in Hj. destruct Hj as [(_ & Hj)|(_ & Hj)]; [eauto|injection Hj as ->; exact E].
        -- intros j z Hi Hj. apply nth_error_snoc in Hj. destruct Hj as [(_ & Hj)|(Hj & _)]; [eauto|]. assert (i < length seen)%nat by (apply nth_error_Some; rewrite H1; discriminate). unfold val in *; lia.
      * assert (E' : (y < x)%Q). { destruct (Qlt_le_dec y x) as [C|C]; [exact C|]. apply Qle_bool_iff in C. congruence. }
        split; [rewrite nth_error_app2, Nat.sub_diag by lia; reflexivity|]. split.
        -- intros j z Hj. apply nth_error_snoc in Hj. destruct Hj as [(_ & Hj)|(_ & Hj)]; [apply H2 in Hj; lra|injection Hj as ->; lra].
        -- intros j z Hi Hj. apply nth_error_snoc in Hj. destruct Hj as [(_ & Hj)|(Hj & _)]; [apply H2 in Hj; lra|unfold val in *; lia].
    + split; [rewrite nth_error_app2, Nat.sub_diag by lia; reflexivity|]. split.
      * intros j z Hj. apply nth_error_snoc in Hj. destruct Hj as [(_ & Hj)|(_ & Hj)]; [apply nth_error_In, H in Hj; discriminate|injection Hj as ->; lra].
      * intros j z Hi Hj. apply nth_error_snoc in Hj. destruct Hj as [(_ & Hj)|(Hj & _)]; [apply nth_error_In, H in Hj; discriminate|unfold val in *; lia].
  - destruct best as [(i, y)|].
    + destruct H as (H1 & H2 & H3). split; [rewrite nth_error_app1; [exact H1|apply nth_error_Some; rewrite H1; discriminate]|]. split.
      * intros j z Hj. apply nth_error_snoc in Hj. destruct Hj as [(_ & Hj)|(_ & Hj)]; [eauto|discriminate].
      * intros j z Hi Hj. apply nth_error_snoc in Hj. destruct Hj as [(_ & Hj)|(_ & Hj)]; [eauto|discriminate].
    + intros v Hv. apply in_app_or in Hv. destruct Hv as [Hv|[<-|[]]]; [auto|reflexivity].
Qed.
Lemma nanargmax_spec : forall l, (exists i x, nanargmax l = Ok i /\ first_largest l i x) \/ (nanargmax l = Err ValueError /\ ~ has_number l).
Proof.
  intros l. pose proof (nanargmax_from_spec l [] None (fun v H => match H with end)) as B. cbn [app length] in B. unfold nanargmax. destruct (nanargmax_from None 0 l) as [(i, x)|]; cbn [best_of] in B.
  - left. exists i, x. split; [reflexivity|exact B].
  - right. split; [reflexivity|]. intros (x & Hx). apply B in Hx. discriminate.
Qed.
Section Names.
Context {D M T : Type}.
Lemma ringed_ok : forall (nm : name D M T) ks values c, ringed nm ks values = Ok c -> ringed_curve nm ks values c.
Proof.
  intros nm ks values c H. unfold ringed in H. destruct (nanargmax_spec values) as [(i & x & E & F)|(E & _)]; rewrite E in H; [|discriminate]. cbn [bind] in H.
  destruct (nth_error ks i) as [k|] eqn:Ek; [|discriminate]. cbn [of_option bind] in H. rewrite (proj1 F) in H. cbn [of_option bind] in H. injection H as <-.
  split; [reflexivity|]. split; [reflexivity|]. exists i, k, x. split; [reflexivity|]. split; [exact Ek|exact F].
Qed.
Lemma ringed_total : forall (nm : name D M T) ks values, length ks = length values -> has_number values -> exists c, ringed nm ks values = Ok c.
Proof.
  intros nm ks values L H. unfold ringed. destruct (nanargmax_spec values) as [(i & x & E & F)|(_ & C)]; [|contradiction]. rewrite E. cbn [bind].
  destruct (nth_error ks i) as [k|] eqn:Ek. 2:{ apply nth_error_None in Ek. assert (i < length values)%nat by (apply nth_error_Some; rewrite (proj1 F); discriminate). unfold val in *; lia. }
  cbn [of_option bind]. rewrite (proj1 F). eexists. reflexivity.
Qed.
Lemma ringed_none : forall (nm : name D M T) ks values, ~ has_number values -> ringed nm ks values = Err ValueError.
Proof.
  intros nm ks values H. unfold ringed. destruct (nanargmax_spec values) as [(i & x & E & F)|(E & _)].
  - destruct H. exists x. eapply nth_error_In. exact (proj1 F).
  - rewrite E. reflexivity.
Qed.
Lemma panels_of : forall (A : Type) (l : list A) (mk : A -> name D M T) (curves : A -> res (list (curve D M T))) r,
  subplots l (fun i a => do cs <- curves a; Ok (mkPanel (mk a) cs (is_last (length l) i) NoName)) = Ok r ->
  in_last (map (@pn_legend D M T) r) /\ Forall2 (fun a p => pn_label p = mk a /\ curves a = Ok (pn_curves p)) l r.
Proof.
  intros A l mk curves r H. apply subplots_inv in H. destruct H as [NE F].
  assert (F' : Forall2 (fun q p => pn_legend p = is_last (0 + length l) (fst q) /\ pn_label p = mk (snd q) /\ curves (snd q) = Ok (pn_curves p)) (numbered l) r).
  { eapply forall2_impl; [|exact F]. intros (i, a) p H. cbn [fst snd] in *. destruct (curves a) as [cs|e] eqn:E; [|discriminate]. injection H as <-. repeat split; assumption. }
  split.
  - unfold in_last. apply (numbered_last A _ _ l r 0); [destruct l; [congruence|cbn [length]; lia]|]. eapply forall2_impl; [|exact F']. intros q p H. apply H.
  - eapply forall2_impl; [|apply (forall2_numbered _ _ (fun _ a p => pn_label p = mk a /\ curves a = Ok (pn_curves p)) l r 0)].
    + intros a p (i & H). exact H.
    + eapply forall2_impl; [|exact F']. intros q p H. apply H.
Qed.
Lemma curves_of : forall (A : Type) (l : list A) (mk : A -> name D M T) ks (v : A -> list val) cs, mapM (fun a => ringed (mk a) ks (v a)) l = Ok cs ->
  Forall2 (fun a c => ringed_curve (mk a) ks (v a) c) l cs.
Proof. intros A l mk ks v cs H. apply mapM_inv in H. eapply forall2_impl; [|exact H]. intros a c E. apply ringed_ok. exact E. Qed.

End Names.

Section Figures.
Context {D M T : Type}.
Notation nameT := (name D M T).
Lemma tree_wise_one : forall (X Y Z : Type) (xs : list X) (ys : list Y) (zs : list Z) (nx : X -> nameT) (ny : Y -> nameT) (nz : Z -> nameT) ks (v : X -> Y -> Z -> list val) figs,
  mapM (fun x => do panels <- subplots ys (fun i y => do curves <- mapM (fun z => ringed (nz z) ks (v x y z)) zs; Ok (mkPanel (ny y) curves (is_last (length ys) i) NoName)); Ok (nx x, panels)) xs = Ok figs ->
  figures xs ys zs nx ny (fun x y z => ringed_curve (nz z) ks (v x y z)) figs.
Proof.
  intros X Y Z xs ys zs nx ny nz ks v figs H. apply mapM_inv in H. eapply forall2_impl; [|exact H]. intros x (t, panels) E. cbn beta in E.
  destruct (subplots ys _) as [ps|e] eqn:S; [|discriminate]. cbn [bind] in E. injection E as <- <-. cbn [fst snd]. split; [reflexivity|].
  apply panels_of in S. destruct S as [S1 S2]. split; [exact S1|]. eapply forall2_impl; [|exact S2]. intros y p [P1 P2]. split; [exact P1|]. apply (curves_of _ zs nz ks (v x y)). exact P2.
Qed.
Lemma tree_wise_ok : forall ds ms ts ks (v : D -> M -> T -> list val) c figs, plot_tree_wise ds ms ts ks v c = Ok figs ->
  match c with
  | CompareMetrics => figures ds ms ts OfDataset OfModel (fun d m t => ringed_curve (OfMetric t) ks (v d m t)) figs
  | CompareModels => figures ds ts ms OfDataset OfMetric (fun d t m => ringed_curve (OfModel m) ks (v d m t)) figs
  | CompareDatasets => figures ms ts ds OfModel OfMetric (fun m t d => ringed_curve (OfDataset d) ks (v d m t)) figs
  | CompareOther => False
  end.
Proof.
  intros ds ms ts ks v c figs H. destruct c; cbn [plot_tree_wise] in H.
  - exact (tree_wise_one D T M ds ts ms OfDataset OfMetric OfModel ks (fun d t m => v d m t) figs H).
  - exact (tree_wise_one D M T ds ms ts OfDataset OfModel OfMetric ks v figs H).
  - exact (tree_wise_one M T D ms ts ds OfModel OfMetric OfDataset ks (fun m t d => v d m t) figs H).
  - discriminate.
Qed.
Lemma mapM_exists : forall (A B : Type) (f : A -> res B) l, (forall a, In a l -> exists b, f a = Ok b) -> exists r, mapM f l = Ok r.
Proof.
  intros A B f. induction l as [|a l IH]; intros H; [exists []; reflexivity|]. destruct (H a (or_introl eq_refl)) as (b & E). destruct (IH (fun x h => H x (or_intror h))) as (r & Er).
  exists (b :: r). cbn [mapM]. rewrite E. cbn [bind]. rewrite Er. reflexivity.
Qed.
Lemma in_numbered : forall (A : Type) (l : list A) p, In p (numbered l) -> In (snd p) l.
Proof. intros A l (i, a) H. unfold numbered in H. apply in_combine_r in H. exact H. Qed.
Lemma subplots_exists : forall (A B : Type) (l : list A) (f : nat -> A -> res B), l <> [] -> (forall i a, In a l -> exists b, f i a = Ok b) -> exists r, subplots l f = Ok r.
Proof.
  intros A B l f NE H. unfold subplots. destruct l as [|a0 l0] eqn:E; [congruence|]. rewrite <- E in *. replace (length l =? 0)%nat with false by (rewrite E; reflexivity). apply mapM_exists. intros p Hp. apply H. apply in_numbered. exact Hp.
Qed.
Lemma tree_wise_total_one : forall (X Y Z : Type) (xs : list X) (ys : list Y) (zs : list Z) (nx : X -> nameT) (ny : Y -> nameT) (nz : Z -> nameT) ks (v : X -> Y -> Z -> list val), ys <> [] ->
  (forall x y z, In x xs -> In y ys -> In z zs -> length (v x y z) = length ks /\ has_number (v x y z)) ->
  exists figs, mapM (fun x => do panels <- subplots ys (fun i y => do curves <- mapM (fun z => ringed (nz z) ks (v x y z)) zs; Ok (mkPanel (ny y) curves (is_last (length ys) i) NoName)); Ok (nx x, panels)) xs = Ok figs.
Proof.
  intros X Y Z xs ys zs nx ny nz ks v NE H. apply mapM_exists. intros x Hx.
  destruct (subplots_exists _ _ ys (fun i y => do curves <- mapM (fun z => ringed (nz z) ks (v x y z)) zs; Ok (mkPanel (ny y) curves (is_last (length ys) i) (@NoName D M T))) NE) as (ps & E).
  - intros i y Hy. destruct (mapM_exists _ _ (fun z => ringed (nz z) ks (v x y z)) zs) as (cs & E).
    + intros z Hz. destruct (H x y z Hx Hy Hz) as [L N]. apply ringed_total; auto.
    + rewrite E. eexists. reflexivity.
  - rewrite E. eexists. reflexivity.
Qed.
Lemma tree_wise_total : forall ds ms ts ks (v : D -> M -> T -> list val) c, c <> CompareOther -> ms <> [] -> ts <> [] ->
  (forall d m t, In d ds -> In m ms -> In t ts -> length (v d m t) = length ks /\ has_number (v d m t)) -> exists figs, plot_tree_wise ds ms ts ks v c = Ok figs.
Proof.
  intros ds ms ts ks v c Hc Nm Nt H. destruct c; cbn [plot_tree_wise]; [| | |congruence].
  - apply (tree_wise_total_one D T M ds ts ms OfDataset OfMetric OfModel ks (fun d t m => v d m t) Nt). intros. apply H; assumption.
  - apply (tree_wise_total_one D M T ds ms ts OfDataset OfModel OfMetric ks v Nm). intros. apply H; assumption.
  - apply (tree_wise_total_one M T D ms ts ds OfModel OfMetric OfDataset ks (fun m t d => v d m t) Nt). intros. apply H; assumption.
Qed.
Lemma forall2_in_l : forall (A B : Type) (P : A -> B -> Prop) l r a, Forall2 P l r -> In a l -> exists b, In b r /\ P a b.
Proof. intros A B P l r a F. induction F as [|x y l r H F IH]; intros I; [contradiction|]. destruct I as [->|I]; [exists y; split; [left; reflexivity|exact H]|]. destruct (IH I) as (b & Ib & Hb). exists b. split; [right; exact Ib|exact Hb]. Qed.
Lemma figures_in : forall (X Y Z : Type) xs ys zs (nx : X -> nameT) (ny : Y -> nameT) (P : X -> Y -> Z -> curve D M T -> Prop) figs x y z, figures xs ys zs nx ny P figs -> In x xs -> In y ys -> In z zs -> exists c, P x y z c.
Proof.
  intros X Y Z xs ys zs nx ny P figs x y z F Hx Hy Hz. destruct (forall2_in_l _ _ _ _ _ _ F Hx) as (fig & _ & _ & _ & F2). destruct (forall2_in_l _ _ _ _ _ _ F2 Hy) as (p & _ & _ & F3).
  destruct (forall2_in_l _ _ _ _ _ _ F3 Hz) as (c & _ & Hc). exists c. exact Hc.
Qed.
Lemma tree_wise_nan : forall ds ms ts ks (v : D -> M -> T -> list val) c d m t, In d ds -> In m ms -> In t ts -> ~ has_number (v d m t) -> exists e, plot_tree_wise ds ms ts ks v c = Err e.
Proof.
  intros ds ms ts ks v c d m t Hd Hm Ht N. destruct (plot_tree_wise ds ms ts ks v c) as [figs|e] eqn:E; [|exists e; reflexivity]. exfalso. apply tree_wise_ok in E. apply N.
  assert (G : forall nm (cv : curve D M T), ringed_curve nm ks (v d m t) cv -> has_number (v d m t)).
  { intros nm cv (_ & _ & i & k & x & _ & _ & F). exists x. eapply nth_error_In. exact (proj1 F). }
  destruct c; [| | |contradiction].
  - destruct (figures_in _ _ _ _ _ _ _ _ _ _ d t m E Hd Ht Hm) as (cv & Hc). eapply G. exact Hc.
  - destruct (figures_in _ _ _ _ _ _ _ _ _ _ d m t E Hd Hm Ht) as (cv & Hc). eapply G. exact Hc.
  - destruct (figures_in _ _ _ _ _ _ _ _ _ _ m t d E Hm Ht Hd) as (cv & Hc). eapply G. exact Hc.
Qed.

(** Percentages *)
Lemma percent_points : forall (nm : nameT) bins values, percent_curve nm bins values (mkCurve nm (combine bins (map percent values)) None).
Proof.
  intros nm bins values. split; [reflexivity|]. split; [reflexivity|]. cbn [c_points]. split; [rewrite combine_length, map_length; reflexivity|].
  revert values. induction bins as [|b bins IH]; intros [|y0 values] [|i] x y Hx Hy; try discriminate.
  - injection Hx as ->. injection Hy as ->. exists (percent y). split; [reflexivity|]. destruct y as [a|]; [cbn [percent option_map]; ring|exact I].
  - cbn [map combine nth_error] in *. apply IH; assumption.
Qed.
Lemma query_wise_one : forall (X Y Z : Type) (xs : list X) (ys : list Y) (zs : list Z) (nx : X -> nameT) (nz : Z -> nameT) bins (v : X -> Y -> Z -> list val) (xl : nat -> Y -> nameT) figs,
  mapM (fun x => do panels <- subplots ys (fun i y => Ok (mkPanel NoName (map (fun z => mkCurve (nz z) (combine bins (map percent (v x y z))) None) zs) (is_last (length ys) i) (xl i y))); Ok (nx x, panels)) xs = Ok figs ->
  figures xs ys zs nx (fun _ => NoName) (fun x y z => percent_curve (nz z) bins (v x y z)) figs.
Proof.
  intros X Y Z xs ys zs nx nz bins v xl figs H. apply mapM_inv in H. eapply forall2_impl; [|exact H]. intros x (t, panels) E. cbn beta in E.
  destruct (subplots ys _) as [ps|e] eqn:S; [|discriminate]. cbn [bind] in E. injection E as <- <-. cbn [fst snd]. split; [reflexivity|].
  apply subplots_inv in S. destruct S as [NE F]. split.
  - unfold in_last. apply (numbered_last Y _ _ ys ps 0); [destruct ys; [congruence|cbn [length]; lia]|]. eapply forall2_impl; [|exact F]. intros q p Q. injection Q as <-. reflexivity.
  - assert (F' : Forall2 (fun y p => exists i : nat, pn_label p = @NoName D M T /\ pn_curves p = map (fun z => mkCurve (nz z) (combine bins (map percent (v x y z))) None) zs) ys ps).
    { apply (forall2_numbered _ _ (fun _ y p => pn_label p = @NoName D M T /\ pn_curves p = map (fun z => mkCurve (nz z) (combine bins (map percent (v x y z))) None) zs) ys ps 0).
      eapply forall2_impl; [|exact F]. intros q p Q. injection Q as <-. split; reflexivity. }
    eapply forall2_impl; [|exact F']. intros y p (_ & P1 & P2). split; [exact P1|]. rewrite P2. clear. induction zs as [|z zs IH]; [constructor|]. cbn [map]. constructor; [apply percent_points|exact IH].
Qed.
Lemma query_wise_ok : forall ds ms ts bins (v : D -> M -> T -> list val) c figs, plot_query_wise ds ms ts bins v c = Ok figs ->
  match c with
  | CompareMetrics => figures ds ms ts OfDataset (fun _ => NoName) (fun d m t => percent_curve (OfMetric t) bins (v d m t)) figs
  | CompareModels => figures ds ts ms OfDataset (fun _ => NoName) (fun d t m => percent_curve (OfModel m) bins (v d m t)) figs
  | _ => False
  end.
Proof.
  intros ds ms ts bins v c figs H. destruct c; cbn [plot_query_wise] in H; try discriminate.
  - exact (query_wise_one D T M ds ts ms OfDataset OfModel bins (fun d t m => v d m t) _ figs H).
  - exact (query_wise_one D M T ds ms ts OfDataset OfMetric bins v (fun _ _ => NoName) figs H).
Qed.
End Figures.
