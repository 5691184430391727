(** Proofs: what export_scikit_model writes is loaded back (C43). *)
From Coq Require Import Ascii String List ZArith Lia Bool Permutation.
From Verif Require Import Base Lists Num M_Text M_Svmlight S_Svmlight L_Text L_Svmlight2 L_Svmlight3 M_Dataset M_Ensemble S_Ensemble L_Ensemble L_Ensemble2 M_Loaders M_TextLoaders S_Loaders L_Loaders L_QuickRank L_Dump L_Dump2.
Import ListNotations.
Local Open Scope Z_scope.

Lemma show_Z_nat n : 0 <= n -> nat_dec (show_Z n) n.
Proof.
  intros H. unfold show_Z. destruct (Z.ltb_spec n 0); [lia|].
  destruct (nat_digits_spec (S (Z.to_nat (Z.log2 n))) n) as (D & E & V).
  { split; [lia|]. rewrite Nat2Z.inj_succ, Z2Nat.id by apply Z.log2_nonneg.
    destruct (Z.eq_dec n 0); [subst; reflexivity|]. apply Z.log2_spec. lia. }
  { lia. }
  unfold nat_dec. auto.
Qed.
(** Lines of a written file. *)
Definition written (l : text) : Prop := exists b, l = b ++ [newline] /\ line_body b.
Definition safe (t : text) : Prop := Forall (fun c => c <> newline /\ c <> nul) t.
Lemma safe_body t : safe t <-> line_body t.
Proof.
  unfold safe, line_body. rewrite Forall_forall. split.
  - intros H. split; intros I; apply H in I; tauto.
  - intros [H1 H2] c I. split; intros ->; auto.
Qed.
Lemma safe_app a b : safe a -> safe b -> safe (a ++ b).
Proof. intros. apply Forall_app; auto. Qed.
Lemma safe_digits t : digits t -> safe t.
Proof. intros H. eapply Forall_impl; [|exact H]. intros c Hc. split; intros ->; cbn in Hc; intuition discriminate. Qed.
Lemma safe_nat t n : nat_dec t n -> safe t.
Proof. intros (H & _). apply safe_digits. exact H. Qed.
Lemma safe_number t : plain_number t -> safe t.
Proof. intros (_ & [H _] & _ & K). apply safe_body. split; auto. Qed.
Lemma safe_show n : safe (show_Z n).
Proof.
  destruct (show_Z_dec n) as (sg & neg & ds & -> & S & D & _). apply safe_app; [|apply safe_digits; auto].
  inversion S; subst; repeat constructor; discriminate.
Qed.
Lemma safe_tabs n : safe (tabs n) /\ blanks (tabs n).
Proof. unfold tabs. induction n as [|n IH]; cbn [repeat]; [repeat constructor|]. destruct IH. split; constructor; auto. split; discriminate. cbn. tauto. Qed.
Lemma safe_join l : Forall safe l -> safe (join_blank l).
Proof.
  induction 1 as [|x l Hx Hl IH]; [constructor|]. cbn [join_blank]. destruct l; auto.
  apply safe_app; auto. apply safe_app; [repeat constructor; discriminate|]. exact IH.
Qed.
Ltac lit_safe := repeat constructor; discriminate.

Section Export.
Context {V : Type}.
Variable fixed str : V -> text.
Notation recurse := (sk_recurse fixed str).
Definition holds (s : sktree) (t : tree Z V) : Prop :=
  sk_holds (sk_left s) (sk_right s) (sk_feature s) (sk_threshold s) (sk_value s) t.
Definition printable (t : tree Z V) : Prop :=
  Forall (fun x => plain_number (fixed x)) (thresholds t) /\ Forall (fun x => plain_number (str x)) (outputs t).

Lemma recurse_ok s t : holds s t -> Forall (fun i => 0 <= i) (marks t) -> printable t ->
  forall fuel depth, (size t <= fuel)%nat ->
  exists ls, recurse fuel s (mark t) depth = Ok (concat ls) /\ dump_tree "<=" no_tail (convert fixed str t) ls /\ Forall written ls.
Proof.
  unfold holds. induction t as [i v|i f x l IHl r IHr]; intros H M [P1 P2] fuel depth HF; cbn [size sk_holds marks thresholds outputs] in *;
    (destruct fuel as [|fuel]; [lia|]).
  - destruct H as (H1 & H2). inversion M; subst. inversion P2 as [|? ? PV _]; subst.
    exists [tabs depth ++ show_Z i ++ lit ":leaf=" ++ str v ++ [] ++ [newline]].
    split; [|split].
    + cbn [sk_recurse mark]. rewrite (py_get_zget _ _ _ H1). cbn [bind]. change (negb (-2 =? -2)) with false.
      cbn [concat]. rewrite (py_get_zget _ _ _ H2). cbn [bind]. rewrite app_nil_r. reflexivity.
    + cbn [convert]. constructor; try apply PV; try reflexivity; [apply safe_tabs| |apply show_Z_nat; assumption|split; intros []|right; reflexivity].
      apply safe_body, safe_tabs.
    + constructor; [|constructor]. exists (tabs depth ++ show_Z i ++ lit ":leaf=" ++ str v). split; [rewrite <- !app_assoc; reflexivity|].
      apply safe_body. apply safe_app; [apply safe_tabs|]. apply safe_app; [apply safe_show|]. apply safe_app; [lit_safe|]. apply safe_number; assumption.
  - destruct H as (H1 & H2 & H3 & H4 & H5 & H6 & H7). inversion M as [|? ? M1 M2]; subst. apply Forall_app in M2. destruct M2 as [M2 M3].
    inversion P1 as [|? ? PX PT]; subst. apply Forall_app in PT, P2. destruct PT as [PT1 PT2]. destruct P2 as [PO1 PO2].
    destruct (IHl H6 M2 (conj PT1 PO1) fuel (S depth)) as (ll & L1 & L2 & L3); [lia|].
    destruct (IHr H7 M3 (conj PT2 PO2) fuel (S depth)) as (lr & R1 & R2 & R3); [lia|].
    exists ((tabs depth ++ show_Z i ++ lit ":[f" ++ show_Z f ++ lit "<=" ++ fixed x ++ lit "]" ++ [] ++ [newline]) :: ll ++ lr).
    split; [|split].
    + cbn [sk_recurse mark]. rewrite (py_get_zget _ _ _ H1). cbn [bind].
      destruct (Z.eqb_spec f (-2)); [lia|]. cbn [negb]. rewrite (py_get_zget _ _ _ H3). cbn [bind].
      rewrite (py_get_zget _ _ _ H4). cbn [bind]. rewrite L1. cbn [bind].
      rewrite (py_get_zget _ _ _ H5). cbn [bind]. rewrite R1. cbn [bind concat]. rewrite concat_app, <- !app_assoc. reflexivity.
    + cbn [convert]. constructor; auto; try apply PX; try (intros []; fail);
        [apply safe_tabs|apply safe_body, safe_tabs|apply show_Z_nat; assumption|apply show_Z_nat; assumption|split; intros []|right; reflexivity].
    + constructor; [|apply Forall_app; auto].
      exists (tabs depth ++ show_Z i ++ lit ":[f" ++ show_Z f ++ lit "<=" ++ fixed x ++ lit "]"). split; [rewrite <- !app_assoc; reflexivity|].
      apply safe_body. apply safe_app; [apply safe_tabs|]. apply safe_app; [apply safe_show|]. apply safe_app; [lit_safe|].
      apply safe_app; [apply safe_show|]. apply safe_app; [lit_safe|]. apply safe_app; [apply safe_number; assumption|lit_safe].
Qed.

(** A fitted tree. *)
Definition fitted (s : sktree) (t : tree Z V) : Prop :=
  holds s t /\ own_numbers t /\ length (sk_feature s) = size t.
Lemma own_nonneg (t : tree Z V) : own_numbers t -> Forall (fun i => 0 <= i) (marks t).
Proof. intros [_ P]. apply Forall_forall. intros i Hi. apply (Permutation_in _ P) in Hi. apply in_zrange in Hi. lia. Qed.

Lemma export_trees ss ts : Forall2 fitted ss ts -> Forall printable ts -> forall kn n, n = (kn + length ss)%nat ->
  exists bs ls, mapM (fun p => sk_export_tree fixed str (snd p) (fst p)) (combine (zrange (Z.of_nat kn) (Z.of_nat n)) ss) = Ok bs /\
    concat bs = concat ls /\ dump_trees "<=" no_tail (Z.of_nat kn) (map (convert fixed str) ts) ls /\ Forall written ls.
Proof.
  induction 1 as [|s t ss ts (H1 & H2 & H3) _ IH]; intros P kn n Hn.
  - exists [], []. rewrite combine_nil. split; [reflexivity|]. split; [reflexivity|]. split; [constructor|constructor].
  - inversion P as [|? ? P1 P2]; subst. cbn [length] in *.
    destruct (IH P2 (S kn) (kn + S (length ss))%nat) as (bs & ls & B1 & B2 & B3 & B4); [lia|].
    destruct (recurse_ok s t H1 (own_nonneg t H2) P1 (S (length (sk_feature s))) 1) as (ll & L1 & L2 & L3); [lia|].
    rewrite zrange_cons by lia. cbn [combine mapM fst snd].
    replace (Z.of_nat kn + 1) with (Z.of_nat (S kn)) by lia. rewrite B1.
    unfold sk_export_tree at 1. destruct H2 as [H2 _]. rewrite H2 in L1. rewrite L1. cbn [bind].
    set (names := join_blank _).
    assert (SN : safe names).
    { apply safe_join. apply Forall_map. apply Forall_forall. intros f _. constructor; [split; discriminate|apply safe_show]. }
    eexists _, ((lit "booster[" ++ show_Z (Z.of_nat kn) ++ lit "]" ++ (lit " [" ++ names ++ lit "]:" ++ [newline])) :: ll ++ ls).
    split; [reflexivity|]. split; [|split].
    + cbn [concat]. rewrite B2, concat_app. rewrite <- !app_assoc. reflexivity.
    + cbn [map]. constructor; [apply show_Z_nat; lia|exact L2|]. replace (Z.of_nat kn + 1) with (Z.of_nat (S kn)) by lia. exact B3.
    + constructor; [|apply Forall_app; auto].
      exists (lit "booster[" ++ show_Z (Z.of_nat kn) ++ lit "]" ++ lit " [" ++ names ++ lit "]:"). split; [rewrite <- !app_assoc; reflexivity|].
      apply safe_body. apply safe_app; [lit_safe|]. apply safe_app; [apply safe_show|]. apply safe_app; [lit_safe|].
      apply safe_app; [lit_safe|]. apply safe_app; [exact SN|lit_safe].
Qed.

Lemma export_ok base lr ss ts : Forall2 fitted ss ts -> Forall printable ts -> plain_number (fixed base) -> plain_number (fixed lr) ->
  exists f ls, sk_export fixed str base lr ss = Ok f /\ sk_lines (map (convert fixed str) ts) (fixed base) (fixed lr) ls /\ file_text f ls.
Proof.
  intros H P PB PL. destruct (export_trees ss ts H P 0 (length ss) eq_refl) as (bs & ls & B1 & B2 & B3 & B4).
  unfold sk_export. change (Z.of_nat 0) with 0 in B1. rewrite B1. cbn [bind].
  exists (concat ((lit "base_score=" ++ fixed base ++ [newline]) :: (lit "learning_rate=" ++ fixed lr ++ [newline]) :: ls)).
  eexists. split; [|split].
  - cbn [concat]. rewrite B2, <- !app_assoc. reflexivity.
  - apply (sk_file _ (fixed base) (fixed lr) [newline] [newline] ls); try apply PB; try apply PL; try (right; reflexivity). exact B3.
  - apply file_text_lines. constructor; [|constructor; [|exact B4]].
    + exists (lit "base_score=" ++ fixed base). split; [rewrite <- app_assoc; reflexivity|]. apply safe_body, safe_app; [lit_safe|apply safe_number; auto].
    + exists (lit "learning_rate=" ++ fixed lr). split; [rewrite <- app_assoc; reflexivity|]. apply safe_body, safe_app; [lit_safe|apply safe_number; auto].
Qed.
End Export.

Section RoundTrip.
Context {N : num} {V : Type}.
Variable rd : text -> option N.
Variable fixed str : V -> text.
Notation cell := (cell_of rd).
(** The printed numbers of a tree can be read. *)
Definition prints_well (t : tree Z V) : Prop :=
  printable fixed str t /\ fits16 t /\
  Forall (fun x => readable rd (fixed x)) (thresholds t) /\ Forall (fun x => readable rd (str x)) (outputs t).
Lemma thresholds_convert {A U W} (h k : U -> W) (t : tree A U) : thresholds (convert h k t) = map h (thresholds t).
Proof. induction t; cbn; auto. rewrite map_app. congruence. Qed.
Lemma outputs_convert {A U W} (h k : U -> W) (t : tree A U) : outputs (convert h k t) = map k (outputs t).
Proof. induction t; cbn; auto. rewrite map_app. congruence. Qed.
Lemma convert_convert {A U W X} (h k : U -> W) (h' k' : W -> X) (t : tree A U) :
  convert h' k' (convert h k t) = convert (fun x => h' (h x)) (fun x => k' (k x)) t.
Proof. induction t; cbn; congruence. Qed.

Theorem C43_lemma base lr b l ss ts : Forall2 fitted ss ts -> Forall prints_well ts ->
  plain_number (fixed base) -> plain_number (fixed lr) -> rd (fixed base) = Some b -> rd (fixed lr) = Some l ->
  exists f e, sk_export fixed str base lr ss = Ok f /\ sk_load rd f = Ok (e, Some b, Some l) /\
    laid_out e (shifted 0 (map (convert (fun x => cell (fixed x)) (fun v => cell (str v))) ts)) (map (fun _ => none) ts).
Proof.
  intros H P PB PL RB RL.
  destruct (export_ok fixed str base lr ss ts H) as (f & ls & A1 & A2 & A3); auto.
  { eapply Forall_impl; [|exact P]. intros t (K & _). exact K. }
  destruct (C43_load_lemma rd _ _ _ ls f b l A2 A3) as (e & E1 & E2); auto.
  { apply Forall_map. apply Forall_forall. intros t Ht. rewrite Forall_forall in P. destruct (P t Ht) as (_ & P2 & P3 & P4).
    assert (OW : own_numbers t).
    { clear - H Ht. induction H as [|s t' ss ts (_ & K & _) _ IH]; [destruct Ht|]. destruct Ht as [<-|Ht]; auto. }
    split; [unfold fits16; rewrite splits_convert; exact P2|]. split.
    - apply values_parts. rewrite thresholds_convert, outputs_convert. split; apply Forall_map; assumption.
    - destruct OW as [O1 O2]. split; [rewrite mark_convert; exact O1|]. rewrite marks_convert, size_convert. exact O2. }
  exists f, e. split; [exact A1|]. split; [exact E1|].
  rewrite !map_map in E2. erewrite (map_ext _ _ (fun t => convert_convert fixed str cell cell t)) in E2. exact E2.
Qed.
End RoundTrip.
