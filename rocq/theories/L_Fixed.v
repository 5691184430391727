(** Proofs: six decimals (C43). *)
From Coq Require Import Ascii String List ZArith QArith Qabs Lia Lqa Bool Permutation.
From Verif Require Import Base Lists Num M_Text M_Svmlight S_Svmlight L_Text M_Ensemble S_Ensemble M_Loaders M_TextLoaders S_Loaders
  L_Loaders L_QuickRank L_Dump L_Dump2 L_Export M_Float L_Float.
Import ListNotations.
Local Open Scope Z_scope.

Lemma show_nonneg n : 0 <= n -> digits (show_Z n) /\ show_Z n <> [] /\ dvalue (show_Z n) = n.
Proof.
  intros H. destruct (Z.eq_dec n 0) as [->|NE].
  - split; [|split; [discriminate|reflexivity]]. constructor; [left; reflexivity|constructor].
  - destruct (show_pos n ltac:(lia)) as (D & N & V & _). auto.
Qed.
Lemma six_ok k : 0 <= k < 10 ^ 6 -> digits (six_digits k) /\ length (six_digits k) = 6%nat /\ dvalue (six_digits k) = k.
Proof.
  intros H. destruct (show_nonneg k ltac:(lia)) as (D & N & V). unfold six_digits.
  assert (L : (length (show_Z k) <= 6)%nat).
  { destruct (Z.eq_dec k 0) as [->|NE]; [cbn; lia|]. destruct (show_pos k ltac:(lia)) as (_ & _ & _ & B1 & _). unfold n_digits in B1.
    destruct (Nat.le_gt_cases (length (show_Z k)) 6) as [|G]; auto.
    assert (10 ^ 6 <= 10 ^ (Z.of_nat (length (show_Z k)) - 1)) by (apply Z.pow_le_mono_r; lia). lia. }
  split; [apply digits_app; [apply digits_zeros|exact D]|]. split; [rewrite app_length, repeat_length; lia|].
  rewrite dvalue_app, dvalue_zeros, V. lia.
Qed.
Definition sixth (q : Q) : Z := round_even (Z.abs (Qnum q) * 10 ^ 6) (Zpos (Qden q)).
Lemma sixth_ok q : 0 <= sixth q.
Proof.
  unfold sixth. destruct (proj1 (round_even_cases (Z.abs (Qnum q) * 10 ^ 6) (Zpos (Qden q)) ltac:(lia))) as [[-> _]|[-> _]];
  assert (0 <= Z.abs (Qnum q) * 10 ^ 6 / Z.pos (Qden q)) by (apply Z.div_pos; lia); lia.
Qed.
Lemma fixed_numeral q : numeral (show_fixed q) (Dec (Qnum q <? 0) (sixth q) (-6)).
Proof.
  unfold show_fixed. fold (sixth q). pose proof (sixth_ok q) as P.
  destruct (show_nonneg (sixth q / 10 ^ 6)) as (D1 & N1 & V1); [apply Z.div_pos; lia|].
  destruct (six_ok (sixth q mod 10 ^ 6)) as (D2 & L2 & V2); [apply Z.mod_pos_bound; lia|].
  assert (E : dvalue (show_Z (sixth q / 10 ^ 6) ++ six_digits (sixth q mod 10 ^ 6)) = sixth q).
  { rewrite dvalue_app, V1, V2, L2. change (10 ^ Z.of_nat 6) with (10 ^ 6). pose proof (Z.div_mod (sixth q) (10 ^ 6) ltac:(lia)). lia. }
  assert (K := numeral_intro (if Qnum q <? 0 then lit "-" else []) (Qnum q <? 0) (show_Z (sixth q / 10 ^ 6)) (lit ".") (six_digits (sixth q mod 10 ^ 6)) [] 0).
  rewrite E, L2, app_nil_r in K. apply K; auto.
  - destruct (Qnum q <? 0); constructor.
  - destruct (show_Z (sixth q / 10 ^ 6)); [congruence|discriminate].
  - constructor.
Qed.
(** Within half a millionth. *)
Lemma fixed_value q : (Qabs (dec_value (Dec (Qnum q <? 0) (sixth q) (-6)) - q) <= 1 # 2000000)%Q.
Proof.
  pose proof (round_even_near (Z.abs (Qnum q) * 10 ^ 6) (Zpos (Qden q)) ltac:(lia)) as H. fold (sixth q) in H.
  unfold dec_value, dec_num, dec_den. rewrite Qred_correct. change (10 ^ Z.max 0 (- -6)) with 1000000. change (10 ^ Z.max 0 (-6)) with 1. rewrite Z.mul_1_r.
  set (v := (inject_Z (sixth q) / inject_Z 1000000)%Q). set (m := sixth q) in *. destruct q as [n d]. cbn [Qnum Qden] in *.
  change (10 ^ 6) with 1000000 in H.
  assert (E : (Qabs (v - (Z.abs n # d)) <= 1 # 2000000)%Q).
  { apply Qabs_Qle_condition. unfold v, Qdiv, Qinv, inject_Z, Qle, Qminus, Qplus, Qopp, Qmult. cbn [Qnum Qden]. rewrite ?Pos2Z.inj_mul. lia. }
  destruct (Z.ltb_spec n 0).
  - rewrite Z.abs_neq in E by lia. setoid_replace (- v - (n # d))%Q with (- (v - (- n # d)))%Q; [rewrite Qabs_opp; exact E|].
    unfold Qminus, Qopp, Qplus, Qeq. cbn [Qnum Qden]. ring.
  - rewrite Z.abs_eq in E by lia. exact E.
Qed.

(** The characters of a numeral. *)
Definition num_char (c : ascii) : Prop := In c (lit "+-.eE0123456789").
Lemma num_digits t : digits t -> Forall num_char t.
Proof.
  intros H. eapply Forall_impl; [|exact H]. intros c Hc. unfold digit_char, num_char in *. cbn [lit list_ascii_of_string In] in *. tauto.
Qed.
Lemma num_sign t neg : sign_text t neg -> Forall num_char t.
Proof.
  assert (K : num_char "+" /\ num_char "-") by (unfold num_char; cbn [lit list_ascii_of_string In]; tauto).
  intros []; [constructor| |]; (constructor; [tauto|constructor]).
Qed.
Lemma numeral_chars t n : numeral t n -> Forall num_char t.
Proof.
  intros [sg neg ip dot fp ex e S D1 D2 _ Dt Ex]. repeat rewrite Forall_app. repeat split.
  - eapply num_sign; eauto.
  - apply num_digits; auto.
  - destruct Dt as [->|[-> _]]; constructor; [|constructor]. unfold num_char. cbn [lit list_ascii_of_string In]. tauto.
  - apply num_digits; auto.
  - destruct Ex as [|c sg' neg' ds Hc Hs Hd _]; [constructor|]. constructor.
    + unfold num_char. cbn [lit list_ascii_of_string In] in *. tauto.
    + apply Forall_app; split; [eapply num_sign; eauto|apply num_digits; auto].
Qed.
Lemma numeral_nonempty t n : numeral t n -> t <> [].
Proof. intros [sg neg ip dot fp ex e S D1 D2 NE _ _] H. apply app_eq_nil in H as [_ H]. apply app_eq_nil in H as [-> H]. apply app_eq_nil in H as [_ H]. apply app_eq_nil in H as [-> _]. apply NE. reflexivity. Qed.
Lemma num_char_plain c : num_char c -> ~ blank_char c /\ c <> newline /\ c <> ":"%char /\ c <> ","%char /\ c <> nul.
Proof.
  unfold num_char. cbn [lit list_ascii_of_string In]. intros H.
  repeat (destruct H as [<-|H]; [repeat split; try discriminate; intros B; repeat (destruct B as [B|B]; [discriminate|]); try discriminate; destruct B|]). destruct H.
Qed.
Lemma numeral_plain t n : numeral t n -> plain_number t.
Proof.
  intros H. pose proof (numeral_chars _ _ H) as C. pose proof (numeral_nonempty _ _ H) as NE.
  assert (A : forall c, In c t -> ~ blank_char c /\ c <> newline /\ c <> ":"%char /\ c <> ","%char /\ c <> nul).
  { intros c Hc. apply num_char_plain. rewrite Forall_forall in C. auto. }
  unfold plain_number, quiet_text. repeat split; auto; try (intros Hc; apply A in Hc; intuition congruence).
  apply Forall_forall. intros c Hc. apply A; auto.
Qed.

Lemma py_float_numeral t n : numeral t n -> py_float t = Some n.
Proof.
  intros H. destruct (numeral_plain _ _ H) as (W & _). unfold py_float.
  rewrite (py_strip_word t t); [|exists [], []; rewrite app_nil_r; repeat split; constructor|exact W].
  pose proof (istream_float_numeral [] t n []) as K. cbn [app] in K. rewrite app_nil_r in K. rewrite K; auto; [constructor|]. repeat split.
Qed.

Definition sixed (q : Q) : Q := dec_value (Dec (Qnum q <? 0) (sixth q) (-6)).
Lemma rd_fixed q : rdQ (show_fixed q) = Some (sixed q).
Proof. unfold rdQ. rewrite (py_float_numeral _ _ (fixed_numeral q)). reflexivity. Qed.

Lemma dec_value_red t : Qred (dec_value t) = dec_value t.
Proof. destruct t; cbn [dec_value]; try reflexivity. apply Qred_complete, Qred_correct. Qed.
Lemma convert_ext {A U W} (h k h' k' : U -> W) (t : tree A U) :
  Forall (fun x => h x = h' x) (thresholds t) -> Forall (fun x => k x = k' x) (outputs t) -> convert h k t = convert h' k' t.
Proof.
  induction t as [a v|a f x l IHl r IHr]; cbn [thresholds outputs convert]; intros H1 H2.
  - inversion H2; subst. congruence.
  - inversion H1 as [|? ? E H3]; subst. apply Forall_app in H3 as [H3 H4]. apply Forall_app in H2 as [H5 H6]. rewrite E, IHl, IHr by assumption. reflexivity.
Qed.

(** [str] prints leaf values exactly; everything else is written with %f. *)
Definition exactly (str : Q -> text) (v : Q) : Prop := exists n, numeral (str v) n /\ (dec_value n == v)%Q.
Theorem C43_six_lemma (str : Q -> text) (base lr : Q) ss (ts : list (tree Z Q)) :
  Forall2 (@fitted Q) ss ts -> Forall fits16 ts -> Forall (fun t => Forall (exactly str) (outputs t)) ts ->
  exists f e, sk_export show_fixed str base lr ss = Ok f /\ sk_load rdQ f = Ok (e, Some (sixed base), Some (sixed lr)) /\
    laid_out (N:=QN) e (shifted 0 (map (convert sixed Qred) ts)) (map (fun _ => none) ts) /\
    (forall q, Qabs (sixed q - q) <= 1 # 2000000)%Q.
Proof.
  intros F H16 HS.
  assert (R : forall v, exactly str v -> rdQ (str v) = Some (Qred v)).
  { intros v (n & Hn & E). unfold rdQ. rewrite (py_float_numeral _ _ Hn). f_equal. rewrite <- dec_value_red. apply Qred_complete. exact E. }
  destruct (@C43_lemma QN Q rdQ show_fixed str base lr (sixed base) (sixed lr) ss ts) as (f & e & E1 & E2 & LO); auto.
  - rewrite Forall_forall in H16, HS. apply Forall_forall. intros t Ht. specialize (H16 t Ht). specialize (HS t Ht). unfold prints_well, printable.
    repeat split; auto.
    + apply Forall_forall. intros x _. exact (numeral_plain _ _ (fixed_numeral x)).
    + eapply Forall_impl; [|exact HS]. intros v (n & Hn & _). exact (numeral_plain _ _ Hn).
    + apply Forall_forall. intros x _. eexists. apply rd_fixed.
    + eapply Forall_impl; [|exact HS]. intros v Hv. eexists. apply R; exact Hv.
  - exact (numeral_plain _ _ (fixed_numeral base)).
  - exact (numeral_plain _ _ (fixed_numeral lr)).
  - apply rd_fixed.
  - apply rd_fixed.
  - exists f, e. split; [exact E1|split; [exact E2|split]].
    + replace (map (convert sixed Qred) ts) with (map (convert (fun x => cell_of rdQ (show_fixed x)) (fun v => cell_of rdQ (str v))) ts); [exact LO|].
      apply map_ext_in. intros t Ht. rewrite Forall_forall in HS. apply convert_ext.
      * apply Forall_forall. intros x _. unfold cell_of. rewrite rd_fixed. reflexivity.
      * eapply Forall_impl; [|exact (HS t Ht)]. intros v Hv. unfold cell_of. rewrite (R v Hv). reflexivity.
    + intros q. apply fixed_value.
Qed.

(** ** float32 models in QuickRank files *)
Lemma show32_back (v : F32N) : Z.abs v < f32_top -> reads_back rd32 show32 v.
Proof.
  intros H. change (car F32N) with Z in v. unfold reads_back, readable, cell_of, show32.
  assert (FI : finite (f32_of v)) by (unfold f32_of; destruct (Z.ltb_spec v 0); cbn [finite]; lia).
  destruct (print_and_read _ FI) as (m & e & NU & _ & R).
  assert (RD : rd32 (show_f32 (f32_of v)) = Some v).
  { unfold rd32. rewrite (py_float_numeral _ _ NU), R. unfold f32_of. destruct (Z.ltb_spec v 0); f_equal; lia. }
  rewrite RD. split; [apply (numeral_plain _ _ NU)|]. split; [eexists; reflexivity|reflexivity].
Qed.
Theorem C39_float32_lemma (m : model F32N) (ts : list (tree Z F32N)) (ws : list F32N) :
  encodes (m_ens m) ts ws -> ts <> [] ->
  (forall t v, In t ts -> In v (values t) -> Z.abs v < f32_top) ->
  Forall (fun v => Z.abs v < f32_top) ws -> Forall fits16 ts ->
  exists x e', quick_save show32 m = Ok x /\ quick_load rd32 x = Ok e' /\ laid_out e' (preorder_all 0 ts) ws.
Proof.
  intros EN NE V W F. apply (@C39_lemma F32N rd32 show32 m ts ws); auto.
  - intros t v Ht Hv. apply show32_back. eapply V; eauto.
  - eapply Forall_impl; [|exact W]. intros v Hv. apply show32_back. exact Hv.
Qed.
