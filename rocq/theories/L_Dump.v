(** Proofs about the loaders of textual dumps, XGBoost and scikit-learn (C41, C43). *)
From Coq Require Import Ascii String List ZArith Lia Bool Permutation.
From Verif Require Import Base Lists Num M_Text M_Svmlight S_Svmlight L_Text L_Svmlight3 M_Dataset M_Ensemble S_Ensemble L_Ensemble L_Ensemble2 M_Loaders M_TextLoaders S_Loaders L_Loaders L_QuickRank.
Import ListNotations.
Local Open Scope Z_scope.

(** ** The regular expressions *)
Lemma strip_app p r : strip p (p ++ r) = Some r.
Proof. induction p as [|a p IH]; cbn [app strip]; auto. rewrite Ascii.eqb_refl. exact IH. Qed.
Lemma nat_dec_span t n r : nat_dec t n -> stops is_digit r -> span is_digit (t ++ r) = (t, r).
Proof. intros (D & _ & _) S. apply digits_span; auto. Qed.
Lemma nat_dec_value t n : nat_dec t n -> digits_val t = n /\ is_nil t = false.
Proof. intros (D & E & V). rewrite digits_val_dvalue. split; auto. destruct t; [congruence|reflexivity]. Qed.

(** A match needs a colon after digits. *)
Lemma strip_colon s l x : strip (lit (String ":" s)) l = Some x -> In ":"%char l.
Proof.
  intros H. apply strip_spec in H. subst l. left. reflexivity.
Qed.
Lemma span_in p l a b c : span p l = (a, b) -> In c b -> In c l.
Proof. intros H I. pose proof (span_spec p l) as K. rewrite H in K. destruct K as (-> & _). apply in_or_app; auto. Qed.
Lemma node_at_colon op l x : node_at op l = Some x -> In ":"%char l.
Proof.
  unfold node_at. destruct (span is_digit l) as [ds r] eqn:E. destruct (is_nil ds); [discriminate|].
  destruct (strip (lit ":[f") r) eqn:S; [|discriminate]. intros _. eapply span_in; [exact E|]. eapply strip_colon; exact S.
Qed.
Lemma leaf_at_colon l x : leaf_at l = Some x -> In ":"%char l.
Proof.
  unfold leaf_at. destruct (span is_digit l) as [ds r] eqn:E. destruct (is_nil ds); [discriminate|].
  destruct (strip (lit ":leaf=") r) eqn:S; [|discriminate]. intros _. eapply span_in; [exact E|]. eapply strip_colon; exact S.
Qed.
Lemma search_none {A} (m : text -> option A) l : (forall l' x, m l' = Some x -> In ":"%char l') -> ~ In ":"%char l -> search m l = None.
Proof.
  intros H. induction l as [|c r IH]; intros N; cbn [search].
  - destruct (m []) eqn:E; auto. apply H in E. destruct E.
  - destruct (m (c :: r)) eqn:E; [apply H in E; contradiction|]. apply IH. intros I. apply N. right; auto.
Qed.
Lemma search_step {A} (m : text -> option A) c r : m (c :: r) = None -> search m (c :: r) = search m r.
Proof. intros H. cbn [search]. rewrite H. reflexivity. Qed.
Lemma search_hit {A} (m : text -> option A) l x : m l = Some x -> search m l = Some x.
Proof. intros H. destruct l; cbn [search]; rewrite H; reflexivity. Qed.
Lemma at_not_digit op c r : is_digit c = false -> node_at op (c :: r) = None /\ leaf_at (c :: r) = None.
Proof. intros H. unfold node_at, leaf_at. cbn [span]. rewrite H. cbn [is_nil]. auto. Qed.
Lemma search_skip {A} (m : text -> option A) a b : (forall c r, is_digit c = false -> m (c :: r) = None) ->
  Forall (fun c => is_digit c = false) a -> search m (a ++ b) = search m b.
Proof. intros M H. induction H as [|c a Hc _ IH]; cbn [app]; auto. rewrite search_step; auto. Qed.
(** Digits followed by something that is not a match: look further. *)
Lemma search_digits {A} (m : text -> option A) ds b : digits ds ->
  (forall ds', digits ds' -> ds' <> [] -> m (ds' ++ b) = None) -> search m (ds ++ b) = search m b.
Proof.
  intros D H. induction D as [|c ds Hc D IH]; cbn [app]; auto.
  rewrite search_step; auto. apply (H (c :: ds)); [constructor; auto|discriminate].
Qed.
Lemma digits_at ds b : digits ds -> ds <> [] -> stops is_digit b ->
  (forall op, strip (lit ":[f") b = None -> node_at op (ds ++ b) = None) /\ (strip (lit ":leaf=") b = None -> leaf_at (ds ++ b) = None).
Proof.
  intros D E S. unfold node_at, leaf_at. rewrite digits_span by auto. destruct ds; [congruence|]. cbn [is_nil].
  split; [intros op H|intros H]; rewrite H; reflexivity.
Qed.
Lemma blanks_not_digit w : blanks w -> Forall (fun c => is_digit c = false) w.
Proof. intros H. eapply Forall_impl; [|exact H]. intros c Hc. apply is_digit_false. intros D. eapply digit_not_blank; eauto. Qed.
Lemma upto_last_none c l : ~ In c l -> upto_last c l = None.
Proof.
  induction l as [|x l IH]; intros H; cbn [upto_last]; auto. rewrite IH by (intros I; apply H; right; auto).
  destruct (Ascii.eqb_spec x c); auto. exfalso. apply H. left; auto.
Qed.
Lemma upto_last_app c a b : ~ In c b -> upto_last c (a ++ c :: b) = Some a.
Proof.
  intros H. induction a as [|x a IH]; cbn [app upto_last].
  - rewrite upto_last_none by auto. rewrite Ascii.eqb_refl. reflexivity.
  - rewrite IH. reflexivity.
Qed.
Lemma before_eol t nl : ~ In newline t -> eol nl -> before newline (t ++ nl) = t.
Proof. intros H [->| ->]; apply before_app; auto. right. exists []. reflexivity. Qed.
Lemma word_no_newline w : word w -> ~ In newline w.
Proof. intros [_ H] I. rewrite Forall_forall in H. apply (H _ I). cbn. tauto. Qed.

Section Line.
Variable op : string.
Hypothesis op_ok : op = "<"%string \/ op = "<="%string.
Lemma node_line ind ti i tf f thr tail nl :
  blanks ind -> nat_dec ti i -> nat_dec tf f -> word thr -> quiet_text thr -> quiet_text tail -> ~ In "]"%char tail -> eol nl ->
  let l := ind ++ ti ++ lit ":[f" ++ tf ++ lit op ++ thr ++ lit "]" ++ tail ++ nl in
  search (node_at op) l = Some (i, f, thr) /\ search leaf_at l = None /\ booster_match l = None.
Proof.
  intros B NI NF W QT QL NB E l. subst l. split; [|split].
  - rewrite search_skip; [|intros; apply at_not_digit; auto|apply blanks_not_digit; auto].
    apply search_hit. unfold node_at. rewrite (nat_dec_span ti i) by (auto; reflexivity).
    destruct (nat_dec_value _ _ NI) as [-> ->]. rewrite strip_app.
    rewrite (nat_dec_span tf f); [|auto|destruct op_ok as [-> | ->]; reflexivity].
    destruct (nat_dec_value _ _ NF) as [-> ->]. rewrite strip_app.
    replace (thr ++ lit "]" ++ tail ++ nl) with ((thr ++ lit "]" ++ tail) ++ nl) by (rewrite <- !app_assoc; reflexivity).
    rewrite before_eol; auto.
    + cbn [lit list_ascii_of_string app]. rewrite upto_last_app by auto. reflexivity.
    + intros I. apply in_app_or in I. destruct I as [I|I]; [apply QT in I; auto|].
      destruct I as [I|I]; [discriminate|]. apply QL in I. auto.
  - rewrite search_skip; [|intros; apply (at_not_digit op); auto|apply blanks_not_digit; auto].
    rewrite search_digits; [|apply NI|].
    2:{ intros ds' D' E'. apply digits_at; auto. reflexivity. }
    cbn [lit list_ascii_of_string app]. do 3 (rewrite search_step by (apply (at_not_digit op); reflexivity)).
    rewrite search_digits; [|apply NF|].
    2:{ intros ds' D' E'. apply digits_at; auto; destruct op_ok as [-> | ->]; reflexivity. }
    apply search_none; [apply leaf_at_colon|].
    intros I. apply in_app_or in I. destruct I as [I|I]; [destruct op_ok as [-> | ->]; cbn in I; intuition discriminate|].
    apply in_app_or in I. destruct I as [I|I]; [apply QT in I; auto|]. destruct I as [I|I]; [discriminate|].
    apply in_app_or in I. destruct I as [I|I]; [apply QL in I; auto|].
    destruct E as [-> | ->]; [destruct I|]. destruct I as [I|[]]; discriminate.
  - unfold booster_match. destruct ind as [|c ind].
    + destruct ti as [|c ti]; [destruct NI as (_ & N & _); congruence|]. cbn [app lit list_ascii_of_string strip].
      destruct NI as (D & _ & _). inversion D as [|? ? D1 D2]; subst.
      destruct (Ascii.eqb_spec "b" c); [|reflexivity]. subst c. cbn in D1. intuition discriminate.
    + cbn [app lit list_ascii_of_string strip]. inversion B as [|? ? B1 B2]; subst.
      destruct (Ascii.eqb_spec "b" c); [|reflexivity]. subst c. cbn in B1. intuition discriminate.
Qed.
Lemma leaf_line ind ti i v tail nl :
  blanks ind -> nat_dec ti i -> word v -> quiet_text v -> quiet_text tail -> eol nl ->
  let l := ind ++ ti ++ lit ":leaf=" ++ v ++ tail ++ nl in
  search (node_at op) l = None /\ search leaf_at l = Some (i, v ++ tail) /\ booster_match l = None.
Proof.
  intros B NI W QV QL E l. subst l.
  assert (NC : ~ In ":"%char (v ++ tail ++ nl)).
  { intros I. apply in_app_or in I. destruct I as [I|I]; [apply QV in I; auto|].
    apply in_app_or in I. destruct I as [I|I]; [apply QL in I; auto|].
    destruct E as [-> | ->]; [destruct I|]. destruct I as [I|[]]; discriminate. }
  split; [|split].
  - rewrite search_skip; [|intros; apply (at_not_digit op); auto|apply blanks_not_digit; auto].
    rewrite search_digits; [|apply NI|].
    2:{ intros ds' D' E'. apply digits_at; auto; reflexivity. }
    cbn [lit list_ascii_of_string app]. do 6 (rewrite search_step by (apply (at_not_digit op); reflexivity)).
    apply search_none; [apply node_at_colon|exact NC].
  - rewrite search_skip; [|intros; apply (at_not_digit op); auto|apply blanks_not_digit; auto].
    apply search_hit. unfold leaf_at. rewrite (nat_dec_span ti i) by (auto; reflexivity).
    destruct (nat_dec_value _ _ NI) as [-> ->]. rewrite strip_app. rewrite app_assoc, before_eol; auto.
    + destruct v as [|c v]; [destruct W; congruence|]. reflexivity.
    + intros I. apply in_app_or in I. destruct I as [I|I]; [apply QV in I|apply QL in I]; auto.
  - unfold booster_match. destruct ind as [|c ind].
    + destruct ti as [|c ti]; [destruct NI as (_ & N & _); congruence|]. cbn [app lit list_ascii_of_string strip].
      destruct NI as (D & _ & _). inversion D as [|? ? D1 D2]; subst.
      destruct (Ascii.eqb_spec "b" c); [|reflexivity]. subst c. cbn in D1. intuition discriminate.
    + cbn [app lit list_ascii_of_string strip]. inversion B as [|? ? B1 B2]; subst.
      destruct (Ascii.eqb_spec "b" c); [|reflexivity]. subst c. cbn in B1. intuition discriminate.
Qed.
Lemma booster_line tk k rest : nat_dec tk k -> booster_match (lit "booster[" ++ tk ++ lit "]" ++ rest) = Some k.
Proof.
  intros H. unfold booster_match. rewrite strip_app. rewrite (nat_dec_span tk k) by (auto; reflexivity).
  destruct (nat_dec_value _ _ H) as [-> ->]. reflexivity.
Qed.
End Line.

Lemma nodup_parts {A} (a b : list A) : NoDup (a ++ b) -> NoDup a /\ NoDup b /\ (forall x, In x a -> In x b -> False).
Proof.
  induction a as [|y a IH]; cbn [app]; intros H.
  - split; [constructor|]. split; auto.
  - inversion H; subst. destruct (IH H3) as (A1 & A2 & A3). split; [constructor; auto; intros I; apply H2; apply in_or_app; auto|].
    split; auto. intros x [<-|Hx] Hb; [apply H2; apply in_or_app; auto|eauto].
Qed.
(** ** The shared loop *)
Section Loop.
Context {N : num}.
Variable rd : text -> option N.
Variable node : text -> option (Z * Z * text).
Variable leaf : text -> option (Z * text).
Variable number : Z -> Z -> Z -> Z.
Variable thr : text -> res N.
Variable hthr : text -> N.
Variable op : string.
Variable leaf_tail : text -> Prop.
Notation cell := (cell_of rd).
Notation step := (dump_line rd node leaf number thr).
Notation conv := (convert hthr cell).
Hypothesis node_ok : forall ind ti i tf f x tail nl,
  blanks ind -> nat_dec ti i -> nat_dec tf f -> word x -> quiet_text x -> quiet_text tail -> ~ In "]"%char tail -> eol nl ->
  let l := ind ++ ti ++ lit ":[f" ++ tf ++ lit op ++ x ++ lit "]" ++ tail ++ nl in
  node l = Some (i, f, x) /\ leaf l = None /\ booster_match l = None.
Hypothesis leaf_ok : forall ind ti i v tail nl,
  blanks ind -> nat_dec ti i -> word v -> quiet_text v -> ~ In ","%char v -> leaf_tail tail -> quiet_text tail -> eol nl ->
  let l := ind ++ ti ++ lit ":leaf=" ++ v ++ tail ++ nl in
  node l = None /\ leaf l = Some (i, v) /\ booster_match l = None.

(** A tree annotated with the written numbers and the indices that the loop gives. *)
Fixpoint numbers_to (root num : Z) (t : tree (Z * Z) text) : Prop :=
  match t with
  | Leaf (i, j) _ => number root num i = j
  | Node (i, j) _ _ l r =>
      number root num i = j /\ numbers_to root (num + 1) l /\ numbers_to root (num + 1 + Z.of_nat (size l)) r
  end.
Definition texts_ok (t : tree (Z * Z) text) : Prop :=
  Forall (fun x => thr x = Ok (hthr x)) (thresholds t) /\ Forall (readable rd) (outputs t).

(** The effect of giving index [i] to the pending child of the queue. *)
Definition link_l (Q : list (Z * side)) (i : Z) (e : ensemble N) (j : Z) : option Z :=
  match Q with (p, L) :: _ => if p =? j then Some i else zget (e_left e) j | _ => zget (e_left e) j end.
Definition link_r (Q : list (Z * side)) (i : Z) (e : ensemble N) (j : Z) : option Z :=
  match Q with (p, R) :: _ => if p =? j then Some i else zget (e_right e) j | _ => zget (e_right e) j end.

Lemma link_ok n e Q i : sized n e -> (forall p c q, Q = (p, c) :: q -> 0 <= p < n) ->
  exists e', match Q with
             | [] => Ok (e, [])
             | (p, c) :: q => do e1 <- match c with L => set_left e p i | R => set_right e p i end; Ok (e1, q)
             end = Ok (e', tl Q) /\ nodes_only e e' /\
    (forall j, zget (e_left e') j = link_l Q i e j) /\ (forall j, zget (e_right e') j = link_r Q i e j) /\
    e_feature e' = e_feature e /\ e_value e' = e_value e.
Proof.
  intros S H. destruct Q as [|[p c] q]; cbn [tl].
  - exists e. unfold link_l, link_r. split; [reflexivity|]. split; [apply nodes_refl|]. auto.
  - specialize (H p c q eq_refl). destruct c.
    + destruct (set_left_ok n e p i S H) as (e1 & A1 & A2 & A3 & A4 & A5 & A6). exists e1. rewrite A1. cbn [bind].
      split; [reflexivity|]. split; [assumption|]. unfold link_l, link_r. split; [exact A3|]. split; [intros; rewrite A4; reflexivity|]. auto.
    + destruct (set_right_ok n e p i S H) as (e1 & A1 & A2 & A3 & A4 & A5 & A6). exists e1. rewrite A1. cbn [bind].
      split; [reflexivity|]. split; [assumption|]. unfold link_l, link_r. split; [intros; rewrite A4; reflexivity|]. split; [exact A3|]. auto.
Qed.

Lemma dump_body t ls : dump_tree op leaf_tail (relabel fst t) ls -> fits16 t -> texts_ok t ->
  forall n e root num Q b lr, sized n e -> numbers_to root num t ->
  NoDup (map snd (marks t)) -> (forall j, In j (map snd (marks t)) -> 0 <= j < n /\ blank_cell e j) ->
  (forall p c q, Q = (p, c) :: q -> 0 <= p < n /\ ~ In p (map snd (marks t))) ->
  exists e', foldM step ls (mkD e root num Q b lr) = Ok (mkD e' root (num + Z.of_nat (size t)) (tl Q) b lr) /\
    nodes_only e e' /\ represents e' (conv (relabel snd t)) /\
    (forall j, ~ In j (map snd (marks t)) ->
       zget (e_left e') j = link_l Q (snd (mark t)) e j /\ zget (e_right e') j = link_r Q (snd (mark t)) e j /\
       zget (e_feature e') j = zget (e_feature e) j /\ zget (e_value e') j = zget (e_value e) j).
Proof.
  revert ls. induction t as [[i id] v|[i id] f x l IHl r IHr]; intros ls DT FT [TT TL] n e root num Q b lr SZ NU ND BL HQ;
    cbn [relabel fst] in DT; inversion DT; subst; clear DT; cbn [marks map snd mark size relabel convert] in *.
  - destruct (leaf_ok ind ti i v tail nl) as (K1 & K2 & K3); auto.
    destruct (BL id (or_introl eq_refl)) as [Hid (B1 & B2 & B3)].
    destruct (set_value_ok n e id (cell v) SZ Hid) as (e1 & A1 & A2 & A3 & A4 & A5 & A6).
    pose proof (sized_nodes n e e1 A2 SZ) as SZ1.
    destruct (link_ok n e1 Q id SZ1) as (e2 & L1 & L2 & L3 & L4 & L5 & L6); [intros; eapply HQ; eauto|].
    exists e2. split; [|split; [|split]].
    + cbn [foldM]. unfold dump_line. rewrite K3, K1, K2. cbn [bind d_root d_num d_ens d_queue d_base d_lr fst snd].
      cbn [numbers_to] in NU. rewrite NU. cbn [outputs] in TL. inversion TL; subst.
      rewrite (py_strip_word v v (padded_refl v)) by assumption. rewrite read_cell_ok by assumption. cbn [bind fst snd].
      rewrite A1. cbn [bind fst snd]. rewrite L1. cbn [bind fst snd]. reflexivity.
    + eapply nodes_trans; eauto.
    + cbn [represents]. rewrite L3, L4, L5, L6, A6, A3, Z.eqb_refl.
      assert (HQid : forall p c q, Q = (p, c) :: q -> p <> id).
      { intros p c q E ->. eapply HQ; [exact E|]. left; reflexivity. }
      unfold link_l, link_r. rewrite A4, A5.
      destruct Q as [|[p [|]] q]; auto; specialize (HQid p _ q eq_refl); destruct (Z.eqb_spec p id); try contradiction; auto.
    + intros j Hj. rewrite L3, L4, L5, L6, A6, A3. unfold link_l, link_r. rewrite A4, A5.
      destruct (Z.eqb_spec id j); [exfalso; apply Hj; left; auto|]. auto.
  - destruct (node_ok ind ti i tf f x tail nl) as (K1 & K2 & K3); auto.
    destruct (BL id (or_introl eq_refl)) as [Hid (B1 & B2 & B3)].
    unfold fits16 in FT. cbn [splits] in FT. inversion FT as [|? ? FF FT']; subst. apply Forall_app in FT'. destruct FT' as [FL FR].
    cbn [thresholds outputs] in TT, TL. inversion TT as [|? ? TX TT']; subst. apply Forall_app in TT'. destruct TT' as [TTL TTR].
    apply Forall_app in TL. destruct TL as [TLL TLR].
    rewrite map_app in *. inversion ND as [|? ? ND1 ND2]; subst. cbn [numbers_to] in NU. destruct NU as (NU1 & NU2 & NU3).
    set (ML := map snd (marks l)) in *. set (MR := map snd (marks r)) in *.
    destruct (nodup_parts _ _ ND2) as (NDL & NDR & DJ).
    assert (NL : ~ In id ML) by (intros I; apply ND1; apply in_or_app; auto).
    assert (NR : ~ In id MR) by (intros I; apply ND1; apply in_or_app; auto).
    destruct (set_feature_ok n e id f SZ Hid) as (e1 & A1 & A2 & A3 & A4 & A5 & A6).
    pose proof (sized_nodes n e e1 A2 SZ) as SZ1.
    destruct (set_value_ok n e1 id (hthr x) SZ1 Hid) as (e2 & C1 & C2 & C3 & C4 & C5 & C6).
    pose proof (sized_nodes n e1 e2 C2 SZ1) as SZ2.
    destruct (link_ok n e2 Q id SZ2) as (e3 & L1 & L2 & L3 & L4 & L5 & L6); [intros; eapply HQ; eauto|].
    pose proof (sized_nodes n e2 e3 L2 SZ2) as SZ3.
    assert (HQid : forall p c q, Q = (p, c) :: q -> p <> id).
    { intros p c q E ->. eapply HQ; [exact E|]. left; reflexivity. }
    assert (E3 : forall j, j <> id -> zget (e_left e3) j = link_l Q id e j /\ zget (e_right e3) j = link_r Q id e j /\
              zget (e_feature e3) j = zget (e_feature e) j /\ zget (e_value e3) j = zget (e_value e) j).
    { intros j Hj. rewrite L3, L4, L5, L6, C6, A3, C3, A6. destruct (Z.eqb_spec id j); [congruence|].
      unfold link_l, link_r. rewrite C4, C5, A4, A5. auto. }
    assert (E3id : zget (e_left e3) id = Some (-1) /\ zget (e_right e3) id = Some (-1) /\
              zget (e_feature e3) id = Some f /\ zget (e_value e3) id = Some (hthr x)).
    { rewrite L3, L4, L5, L6, C6, A3, C3, Z.eqb_refl. unfold link_l, link_r. rewrite C4, C5, A4, A5.
      rewrite (i16_id f) by exact FF.
      destruct Q as [|[p [|]] q]; auto; specialize (HQid p _ q eq_refl); destruct (Z.eqb_spec p id); try contradiction; auto. }
    assert (LQ : forall j, In j ML \/ In j MR -> link_l Q id e j = zget (e_left e) j /\ link_r Q id e j = zget (e_right e) j).
    { intros j Hj. unfold link_l, link_r. destruct Q as [|[p c] q]; auto.
      destruct (HQ p c q eq_refl) as [_ Hp]. assert (p <> j) by (intros ->; apply Hp; right; apply in_or_app; tauto).
      destruct c; destruct (Z.eqb_spec p j); try contradiction; auto. }
    destruct (IHl ll H14 FL (conj TTL TLL) n e3 root (num + 1) ((id, L) :: (id, R) :: tl Q) b lr) as (e4 & M1 & M2 & M3 & M4); auto.
    { fold ML. intros j Hj. split; [apply BL; right; apply in_or_app; auto|].
      assert (j <> id) by congruence. destruct (E3 j H) as (U1 & U2 & U3 & U4). destruct (LQ j (or_introl Hj)) as [U5 U6].
      destruct (BL j ltac:(right; apply in_or_app; auto)) as [_ (V1 & V2 & V3)].
      unfold blank_cell. rewrite U1, U2, U3, U5, U6. auto. }
    { intros p c q E. injection E as <- <- <-. fold ML. auto. }
    fold ML in M4. pose proof (sized_nodes n e3 e4 M2 SZ3) as SZ4.
    destruct (IHr lr0 H15 FR (conj TTR TLR) n e4 root (num + 1 + Z.of_nat (size l)) ((id, R) :: tl Q) b lr) as (e5 & P1 & P2 & P3 & P4); auto.
    { fold MR. intros j Hj. split; [apply BL; right; apply in_or_app; auto|].
      assert (NJ : ~ In j ML) by (intros I; eapply DJ; eauto).
      assert (j <> id) by congruence. destruct (E3 j H) as (U1 & U2 & U3 & U4). destruct (LQ j (or_intror Hj)) as [U5 U6].
      destruct (BL j ltac:(right; apply in_or_app; auto)) as [_ (V1 & V2 & V3)].
      destruct (M4 j NJ) as (W1 & W2 & W3 & W4). unfold link_l, link_r in W1, W2.
      destruct (Z.eqb_spec id j); [congruence|].
      unfold blank_cell. rewrite W1, W2, W3, U1, U2, U3, U5, U6. auto. }
    { intros p c q E. injection E as <- <- <-. fold MR. auto. }
    fold MR in P4.
    exists e5. split; [|split; [|split]].
    + cbn [foldM]. unfold dump_line at 1. rewrite K3, K1, K2. cbn [bind d_root d_num d_ens d_queue d_base d_lr fst snd].
      rewrite NU1. rewrite (py_strip_word x x (padded_refl x)) by assumption. rewrite TX. cbn [bind].
      rewrite A1. cbn [bind]. rewrite C1. cbn [bind fst snd]. rewrite L1. cbn [bind fst snd].
      rewrite foldM_app, M1. cbn [bind tl]. rewrite P1. do 2 f_equal. lia.
    + eapply nodes_trans; [exact A2|]. eapply nodes_trans; [exact C2|]. eapply nodes_trans; [exact L2|]. eapply nodes_trans; eauto.
    + cbn [represents]. rewrite !mark_convert, !mark_relabel.
      destruct (M4 id NL) as (W1 & W2 & W3 & W4). destruct (P4 id NR) as (Y1 & Y2 & Y3 & Y4).
      destruct E3id as (X1 & X2 & X3 & X4).
      unfold link_l, link_r in W1, W2, Y1, Y2. rewrite Z.eqb_refl in *.
      split; [rewrite Y1, W1; reflexivity|]. split; [rewrite Y2; reflexivity|].
      split; [rewrite Y3, W3, X3; reflexivity|]. split; [rewrite Y4, W4, X4; reflexivity|]. split; [|exact P3].
      eapply represents_same; [exact M3|]. intros j Hj. rewrite marks_convert, marks_relabel in Hj. fold ML in Hj.
      assert (NJ : ~ In j MR) by (intros I; eapply DJ; eauto). assert (j <> id) by congruence.
      destruct (P4 j NJ) as (Z1 & Z2 & Z3 & Z4). unfold link_l, link_r in Z1, Z2.
      destruct (Z.eqb_spec id j); [congruence|]. unfold same_cell. auto.
    + intros j Hj. assert (J1 : j <> id) by (intros ->; apply Hj; left; auto).
      assert (J2 : ~ In j ML) by (intros I; apply Hj; right; apply in_or_app; auto).
      assert (J3 : ~ In j MR) by (intros I; apply Hj; right; apply in_or_app; auto).
      destruct (E3 j J1) as (U1 & U2 & U3 & U4). destruct (M4 j J2) as (W1 & W2 & W3 & W4). destruct (P4 j J3) as (Y1 & Y2 & Y3 & Y4).
      unfold link_l, link_r in W1, W2, Y1, Y2. destruct (Z.eqb_spec id j); [congruence|].
      rewrite Y1, Y2, Y3, Y4, W1, W2, W3, W4, U1, U2, U3, U4. auto.
Qed.

(** ** All the trees *)
Lemma dump_count_tree t ls : dump_tree op leaf_tail t ls -> forall c,
  fold_left (fun c l => match booster_match l with
      | Some _ => (fst c + 1, snd c)
      | None => (fst c, snd c + (match node l with Some _ => 1 | None => 0 end) + (match leaf l with Some _ => 1 | None => 0 end))
      end) ls c = (fst c, snd c + Z.of_nat (size t)).
Proof.
  induction 1 as [i v ind ti tail nl B1 B2 NI W QV NC LT QL E|i f x l r ind ti tf tail nl ll lr B1 B2 NI NF W QT QL NB E Hl IHl Hr IHr]; intros c.
  - destruct (leaf_ok ind ti i v tail nl) as (K1 & K2 & K3); auto. cbn [fold_left]. rewrite K3, K1, K2. cbn [size]. f_equal. lia.
  - destruct (node_ok ind ti i tf f x tail nl) as (K1 & K2 & K3); auto. cbn [fold_left]. rewrite K3, K1, K2.
    rewrite fold_left_app, IHl, IHr. cbn [fst snd size]. f_equal. lia.
Qed.
Lemma dump_count_trees k ts ls : dump_trees op leaf_tail k ts ls -> forall c,
  fold_left (fun c l => match booster_match l with
      | Some _ => (fst c + 1, snd c)
      | None => (fst c, snd c + (match node l with Some _ => 1 | None => 0 end) + (match leaf l with Some _ => 1 | None => 0 end))
      end) ls c = (fst c + Z.of_nat (length ts), snd c + Z.of_nat (list_sum (map size ts))).
Proof.
  induction 1 as [k|k tk rest t ll ts ls NK DT DS IH]; intros c.
  - cbn. destruct c; cbn. f_equal; lia.
  - cbn [fold_left]. rewrite (booster_line tk k rest NK). rewrite fold_left_app, (dump_count_tree t ll DT), IH.
    cbn [fst snd length map]. rewrite lsum_cons. f_equal; lia.
Qed.

(** One tree, from its booster line on. *)
Definition good_tree (root : Z) (t : tree (Z * Z) text) : Prop :=
  fits16 t /\ texts_ok t /\ numbers_to root 0 t /\ snd (mark t) = root /\
  Permutation (map snd (marks t)) (zrange root (root + Z.of_nat (size t))).
Fixpoint good_trees (a : Z) (ts : list (tree (Z * Z) text)) : Prop :=
  match ts with [] => True | t :: r => good_tree a t /\ good_trees (a + Z.of_nat (size t)) r end.

Lemma dump_all k ts ls : dump_trees op leaf_tail k (map (relabel fst) ts) ls ->
  forall kn a e root num b lr, k = Z.of_nat kn -> a = root + num -> good_trees a ts ->
  sized (Z.of_nat (length (e_left e))) e -> 0 <= a ->
  a + Z.of_nat (list_sum (map size ts)) <= Z.of_nat (length (e_left e)) -> blank_from a e ->
  (kn + length ts <= length (e_root e))%nat -> (kn + length ts <= length (e_weight e))%nat ->
  exists e' root' num', foldM step ls (mkD e root num [] b lr) = Ok (mkD e' root' num' [] b lr) /\
    chain kn a e (map (fun t => conv (relabel snd t)) ts) (map (fun _ => none) ts) e'.
Proof.
  revert k ls. induction ts as [|t ts IH]; intros k ls D kn a e root num b lr Hk Ha G SZ H0 Hn BL HR HW; cbn [map] in D; inversion D; subst.
  - exists e, root, num. split; [reflexivity|constructor].
  - rename H2 into NK, H4 into DT, H6 into DS. cbn [good_trees] in G. destruct G as [(G1 & G2 & G3 & G4 & G5) G'].
    cbn [map length] in *. rewrite lsum_cons, Nat2Z.inj_add in Hn. set (st := Z.of_nat (size t)) in *.
    set (e2 := mkEns (e_ntrees e) (e_nnodes e) (upd (e_root e) kn (root + num)) (upd (e_weight e) kn none) (e_left e) (e_right e) (e_value e) (e_feature e)).
    destruct (dump_body t ll DT G1 G2 (Z.of_nat (length (e_left e))) e2 (root + num) 0 [] b lr) as (e3 & B1 & B2 & B3 & B4).
    { exact SZ. } { exact G3. }
    { eapply Permutation_NoDup; [symmetry; exact G5|]. apply zrange_nodup. }
    { intros j Hj. apply (Permutation_in _ G5) in Hj. apply in_zrange in Hj. split; [lia|].
      assert (Hr : root + num <= j < Z.of_nat (length (e_left e))) by lia. exact (BL j Hr). }
    { intros p c q E. discriminate. }
    assert (TD : tree_done kn (root + num) e e3 (conv (relabel snd t)) none).
    { destruct B2 as (M1 & M2 & M3 & M4 & M5 & M6 & M7 & M8). unfold tree_done.
      rewrite size_convert, size_relabel, mark_convert, mark_relabel, marks_convert, marks_relabel.
      repeat (split; [assumption|]). split; [|split; [assumption|split; assumption]].
      intros j Hj. destruct (B4 j) as (U1 & U2 & U3 & U4).
      { intros I. apply (Permutation_in _ G5) in I. apply in_zrange in I. apply Hj. exact I. }
      unfold same_cell. auto. }
    destruct (IH (Z.of_nat kn + 1) ls0 DS (S kn) (root + num + st) e3 (root + num) st b lr) as (e4 & r4 & n4 & I1 & I2).
    { lia. } { lia. } { exact G'. }
    { eapply done_sized; [exact TD|]. destruct TD as (_ & _ & _ & _ & L & _). rewrite L. exact SZ. }
    { lia. }
    { destruct TD as (_ & _ & _ & _ & L & _). rewrite L. lia. }
    { pose proof (done_blank _ _ _ _ _ _ TD BL) as K. rewrite size_convert, size_relabel in K. exact K. }
    { destruct TD as (_ & _ & L & _). rewrite L, upd_length. lia. }
    { destruct TD as (_ & _ & _ & L & _). rewrite L, upd_length. lia. }
    exists e4, r4, n4. split.
    + cbn [foldM]. unfold dump_line at 1. rewrite (booster_line tk (Z.of_nat kn) rest NK). cbn [d_queue d_root d_num d_ens d_base d_lr].
      rewrite set_root_ok by lia. cbn [bind]. rewrite set_weight_ok by (cbn [e_weight]; lia).
      cbn [bind e_ntrees e_nnodes e_root e_weight e_left e_right e_value e_feature]. fold e2.
      rewrite foldM_app, B1. cbn [bind tl]. replace (0 + Z.of_nat (size t)) with st by (unfold st; lia). exact I1.
    + econstructor; [exact TD|]. rewrite size_convert, size_relabel. exact I2.
Qed.
End Loop.
