(** Proofs about the catalogue: what json.load reads in what json.dump writes. *)
From Coq Require Import Ascii String List ZArith Lia Bool Permutation Sorted.
From Verif Require Import Base Lists M_Text M_Fetcher M_Catalogue S_Catalogue.
Import ListNotations.
Local Open Scope Z_scope.

Section JsonInd.
Variable P : json -> Prop.
Hypothesis HS : forall t, P (JStr t).
Hypothesis HO : forall items, Forall (fun p => P (snd p)) items -> P (JObj items).
Fixpoint json_ind' (j : json) : P j :=
  match j with
  | JStr t => HS t
  | JObj items => HO items ((fix go l : Forall (fun p => P (snd p)) l :=
      match l with [] => Forall_nil _ | p :: r => Forall_cons p (json_ind' (snd p)) (go r) end) items)
  end.
End JsonInd.

(** Strings *)
Lemma scan_escape : forall c x, scan_string (escape c ++ x) = do s <- scan_string x; Ok (c :: fst s, snd s).
Proof. intros [[] [] [] [] [] [] [] []] x; reflexivity. Qed.
Lemma scan_quoted : forall t x, scan_string (concat (map escape t) ++ lit """" ++ x) = Ok (t, x).
Proof.
  induction t as [|c t IH]; intros x; [reflexivity|].
  cbn [map concat]. rewrite <- app_assoc, scan_escape, IH. reflexivity.
Qed.
Lemma escape_length : forall c, (1 <= length (escape c))%nat.
Proof. intros [[] [] [] [] [] [] [] []]; vm_compute; lia. Qed.
Lemma quote_app : forall t x, quote t ++ x = ascii_of_nat 34 :: (concat (map escape t) ++ lit """" ++ x).
Proof. intros. unfold quote. rewrite <- !app_assoc. reflexivity. Qed.
Lemma quote_length : forall t, (2 <= length (quote t))%nat.
Proof. intros. unfold quote. rewrite !app_length. change (length (lit """")) with 1%nat. lia. Qed.

(** White space *)
Lemma skip_ws_cons : forall c x, json_space c = false -> skip_ws (c :: x) = c :: x.
Proof. intros c x H. unfold skip_ws. cbn [span]. rewrite H. reflexivity. Qed.
Lemma skip_ws_space : forall c x, json_space c = true -> skip_ws (c :: x) = skip_ws x.
Proof. intros c x H. unfold skip_ws. cbn [span]. rewrite H. destruct (span json_space x). reflexivity. Qed.
Lemma skip_ws_repeat : forall n x, skip_ws (repeat " "%char n ++ x) = skip_ws x.
Proof. induction n; intros x; [reflexivity|]. cbn [repeat app]. rewrite skip_ws_space by reflexivity. apply IHn. Qed.
Lemma skip_ws_indent : forall n x, skip_ws (indent n ++ x) = skip_ws x.
Proof. intros n x. unfold indent. cbn [app]. rewrite skip_ws_space by reflexivity. apply skip_ws_repeat. Qed.

(** Order of keys *)
Lemma code_inj : forall a b, code a = code b -> a = b.
Proof. intros a b H. unfold code in H. apply Nat2Z.inj in H. rewrite <- (ascii_nat_embedding a), <- (ascii_nat_embedding b), H. reflexivity. Qed.
Lemma text_leb_total : forall a b, text_leb a b = true \/ text_leb b a = true.
Proof.
  induction a as [|x a IH]; intros [|y b]; try (left; reflexivity); try (right; reflexivity).
  cbn [text_leb]. destruct (Z.eqb_spec (code x) (code y)) as [E|E].
  - rewrite E, Z.eqb_refl. apply IH.
  - destruct (Z.eqb_spec (code y) (code x)); [lia|]. destruct (Z.ltb_spec (code x) (code y)); [left; reflexivity|]. right. apply Z.ltb_lt. lia.
Qed.
Lemma text_leb_trans : forall a b c, text_leb a b = true -> text_leb b c = true -> text_leb a c = true.
Proof.
  induction a as [|x a IH]; intros [|y b] [|z c]; cbn [text_leb]; try reflexivity; try discriminate.
  destruct (Z.eqb_spec (code x) (code y)), (Z.eqb_spec (code y) (code z)), (Z.eqb_spec (code x) (code z)); try lia; rewrite ?Z.ltb_lt; try lia; try discriminate.
  apply IH.
Qed.
Lemma text_leb_antisym : forall a b, text_leb a b = true -> text_leb b a = true -> a = b.
Proof.
  induction a as [|x a IH]; intros [|y b]; cbn [text_leb]; try reflexivity; try discriminate.
  destruct (Z.eqb_spec (code x) (code y)) as [E|E]; [rewrite E, Z.eqb_refl|].
  - intros. rewrite (code_inj _ _ E). f_equal. apply IH; assumption.
  - destruct (Z.eqb_spec (code y) (code x)); [lia|]. rewrite !Z.ltb_lt. lia.
Qed.

(** The dictionary with the keys of every level in order. *)
Definition by_key {A} (p q : text * A) : bool := text_leb (fst p) (fst q).
Fixpoint tidy (j : json) : json :=
  match j with
  | JStr t => JStr t
  | JObj items => JObj (isort by_key (map (fun p => (fst p, tidy (snd p))) items))
  end.
Fixpoint weight (j : json) : nat :=
  match j with
  | JStr _ => 1
  | JObj items => S (list_sum (map (fun p => S (weight (snd p))) items))
  end.

From Verif Require Import L_Metrics.
Lemma isort_by_key_map : forall (A B : Type) (f : A -> B) (l : list (text * A)),
  isort by_key (map (fun p => (fst p, f (snd p))) l) = map (fun p => (fst p, f (snd p))) (isort by_key l).
Proof. intros A B f l. symmetry. apply isort_map. reflexivity. Qed.
Definition pair_text (n : nat) (p : text * json) : text := quote (fst p) ++ lit ": " ++ dumps (S n) (snd p).
Lemma dumps_obj : forall n items, items <> [] ->
  dumps n (JObj items) = lit "{" ++ indent (S n) ++ joined (lit "," ++ indent (S n)) (map (pair_text n) (isort by_key items)) ++ indent n ++ lit "}".
Proof.
  intros n items H. destruct items as [|p0 items]; [congruence|]. set (l := p0 :: items) in *.
  change (dumps n (JObj l)) with (lit "{" ++ indent (S n) ++ joined (lit "," ++ indent (S n))
    (map (fun p : text * text => quote (fst p) ++ lit ": " ++ snd p) (isort by_key (map (fun p => (fst p, dumps (S n) (snd p))) l))) ++ indent n ++ lit "}").
  rewrite isort_by_key_map, map_map. reflexivity.
Qed.
Lemma tidy_obj : forall items, tidy (JObj items) = JObj (map (fun p => (fst p, tidy (snd p))) (isort by_key items)).
Proof. intros. cbn [tidy]. rewrite isort_by_key_map. reflexivity. Qed.
Lemma dumps_head : forall n j, exists c x, dumps n j = c :: x /\ json_space c = false.
Proof.
  intros n [t|items].
  - exists (ascii_of_nat 34). eexists. split; [cbn [dumps]; unfold quote; reflexivity|reflexivity].
  - destruct items as [|p r]; [eexists; eexists; split; reflexivity|]. rewrite dumps_obj by discriminate. eexists. eexists. split; [reflexivity|reflexivity].
Qed.
Lemma skip_ws_dumps : forall n j r, skip_ws (dumps n j ++ r) = dumps n j ++ r.
Proof. intros n j r. destruct (dumps_head n j) as (c & x & E & H). rewrite E. apply skip_ws_cons. exact H. Qed.

Lemma dict_set_new : forall (A : Type) (d : list (text * A)) k v, ~ In k (map fst d) -> dict_set d k v = d ++ [(k, v)].
Proof.
  induction d as [|(k', v') d IH]; intros k v H; [reflexivity|]. cbn [dict_set app]. destruct (list_eq_dec ascii_dec k' k) as [E|E].
  - contradict H. left. exact E.
  - rewrite IH; [reflexivity|]. intros C. apply H. right. exact C.
Qed.

Definition reads_back (j : json) : Prop := forall n fuel r, (weight j <= fuel)%nat -> scan_value fuel (dumps n j ++ r) = Ok (tidy j, r).
Definition cost (l : list (text * json)) : nat := list_sum (map (fun p => S (weight (snd p))) l).
Lemma scan_items_step : forall fuel acc k v n x, reads_back v -> (weight v <= fuel)%nat ->
  scan_items (S fuel) acc (pair_text n (k, v) ++ x) =
  match skip_ws x with
  | e :: r2 => if code e =? 125 then Ok (JObj (dict_set acc k (tidy v)), r2) else if code e =? 44 then scan_items fuel (dict_set acc k (tidy v)) (skip_ws r2) else Err ValueError
  | [] => Err ValueError
  end.
Proof.
  intros fuel acc k v n x IH W. unfold pair_text. cbn [fst snd]. rewrite <- !app_assoc, quote_app. cbn [scan_items].
  change (code (ascii_of_nat 34) =? 34) with true. cbv iota. rewrite scan_quoted. cbn [bind fst snd].
  change (lit ": " ++ dumps (S n) v ++ x) with (ascii_of_nat 58 :: " "%char :: (dumps (S n) v ++ x)). rewrite (skip_ws_cons (ascii_of_nat 58)) by reflexivity.
  cbv iota beta. change (code (ascii_of_nat 58) =? 58) with true. cbv iota. rewrite skip_ws_space by reflexivity. rewrite skip_ws_dumps, (IH (S n) fuel x W). reflexivity.
Qed.
Lemma scan_items_ok : forall l fuel acc n r, l <> [] -> Forall (fun p => reads_back (snd p)) l -> NoDup (map fst acc ++ map fst l) -> (cost l <= fuel)%nat ->
  scan_items fuel acc (joined (lit "," ++ indent (S n)) (map (pair_text n) l) ++ indent n ++ lit "}" ++ r) = Ok (JObj (acc ++ map (fun p => (fst p, tidy (snd p))) l), r).
Proof.
  induction l as [|(k, v) l IH]; intros fuel acc n r NE HR ND W; [congruence|]. inversion HR as [|? ? Hv Hl]; subst. unfold cost in W. cbn [map list_sum fold_right snd] in W.
  destruct fuel as [|fuel]; [unfold list_sum in W; lia|]. cbn [map joined fst snd].
  assert (NK : ~ In k (map fst acc)).
  { cbn [map fst] in ND. apply NoDup_remove_2 in ND. intros C. apply ND. apply in_or_app. left. exact C. }
  rewrite <- app_assoc, scan_items_step by (auto; unfold list_sum in W; cbn [snd] in *; lia). rewrite dict_set_new by exact NK.
  destruct l as [|p l].
  - cbn [map concat]. rewrite app_nil_l, skip_ws_indent. reflexivity.
  - cbn [map concat]. rewrite <- !app_assoc. match goal with |- context [lit "," ++ ?z] => change (lit "," ++ z) with (ascii_of_nat 44 :: z) end. rewrite (skip_ws_cons (ascii_of_nat 44)) by reflexivity. cbv iota beta.
    change (code (ascii_of_nat 44) =? 125) with false. change (code (ascii_of_nat 44) =? 44) with true. cbv iota. rewrite skip_ws_indent.
    match goal with |- scan_items _ _ (skip_ws ?z) = _ => replace (skip_ws z) with z end.
    2:{ destruct p as (k1, v1). unfold pair_text. cbn [fst]. rewrite <- !app_assoc, quote_app. symmetry. apply skip_ws_cons. reflexivity. }
    specialize (IH fuel (acc ++ [(k, tidy v)]) n r). cbn [map joined] in IH. rewrite <- !app_assoc in IH. cbn [app] in IH. apply IH.
    + discriminate.
    + exact Hl.
    + rewrite map_app. cbn [map fst]. rewrite <- app_assoc. exact ND.
    + unfold cost. unfold list_sum in *. cbn [map fold_right] in *. lia.
Qed.
Lemma cost_perm : forall l l', Permutation l l' -> cost l = cost l'.
Proof. unfold cost, list_sum. induction 1; cbn [map fold_right]; lia. Qed.
Lemma dict_values : forall items, dictionary (JObj items) <-> NoDup (map fst items) /\ Forall (fun p => dictionary (snd p)) items.
Proof.
  intros items. cbn [dictionary]. apply and_iff_compat_l. induction items as [|(k, v) l IH]; [split; constructor|]. rewrite IH, Forall_cons_iff. reflexivity.
Qed.
Lemma reads_back_all : forall j, dictionary j -> reads_back j.
Proof.
  induction j as [t|items IH] using json_ind'; intros D n fuel r W.
  - destruct fuel as [|fuel]; [cbn [weight] in W; lia|]. cbn [dumps]. rewrite quote_app. cbn [scan_value]. change (code (ascii_of_nat 34) =? 34) with true. cbv iota.
    rewrite scan_quoted. reflexivity.
  - apply dict_values in D. destruct D as [ND D]. destruct fuel as [|fuel]; [cbn [weight] in W; lia|].
    destruct items as [|p0 items0] eqn:Ei; [reflexivity|]. rewrite <- Ei in *. assert (NE : items <> []) by (rewrite Ei; discriminate). clear Ei.
    rewrite dumps_obj, tidy_obj by exact NE.
    pose proof (isort_perm by_key items) as HP. set (l := isort by_key items) in *.
    rewrite <- !app_assoc. match goal with |- context [lit "{" ++ ?z] => change (lit "{" ++ z) with (ascii_of_nat 123 :: z) end. cbn [scan_value].
    change (code (ascii_of_nat 123) =? 34) with false. change (code (ascii_of_nat 123) =? 123) with true. cbv iota. rewrite skip_ws_indent.
    assert (NL : l <> []). { intros C. rewrite C in HP. apply Permutation_nil in HP. congruence. }
    assert (HH : forall z, exists x, joined (lit "," ++ indent (S n)) (map (pair_text n) l) ++ z = ascii_of_nat 34 :: x).
    { intros z. destruct l as [|q l']; [congruence|]. cbn [map joined]. unfold pair_text at 1. rewrite <- !app_assoc, quote_app. eexists. reflexivity. }
    destruct (HH (indent n ++ lit "}" ++ r)) as (x & Ex). rewrite Ex, skip_ws_cons by reflexivity. change (code (ascii_of_nat 34) =? 125) with false. cbv iota. rewrite <- Ex.
    rewrite scan_items_ok; [reflexivity|exact NL| | |].
    + rewrite Forall_forall in *. intros q Hq. apply (Permutation_in _ HP) in Hq. apply IH; auto.
    + cbn [map app]. apply (Permutation_NoDup (l:=map fst items)); [|exact ND]. apply Permutation_map. symmetry. exact HP.
    + rewrite (cost_perm _ _ HP). cbn [weight] in W. unfold cost. lia.
Qed.
Lemma weight_length : forall j n, (weight j <= length (dumps n j))%nat.
Proof.
  induction j as [t|items IH] using json_ind'; intros n.
  - cbn [weight dumps]. pose proof (quote_length t). lia.
  - destruct items as [|p0 items0] eqn:Ei; [vm_compute; lia|]. rewrite <- Ei in *. rewrite dumps_obj by (rewrite Ei; discriminate).
    change (weight (JObj items)) with (S (cost items)). rewrite <- (cost_perm _ _ (isort_perm by_key items)).
    assert (HF : Forall (fun p => forall n, (weight (snd p) <= length (dumps n (snd p)))%nat) (isort by_key items)).
    { rewrite Forall_forall in *. intros q Hq. apply IH. apply (Permutation_in _ (isort_perm by_key items)). exact Hq. }
    rewrite !app_length. change (length (lit "{")) with 1%nat. change (length (lit "}")) with 1%nat.
    cut (cost (isort by_key items) <= length (joined (lit "," ++ indent (S n)) (map (pair_text n) (isort by_key items))))%nat; [lia|].
    assert (HO : forall q, (forall n, (weight (snd q) <= length (dumps n (snd q)))%nat) -> (S (weight (snd q)) <= length (pair_text n q))%nat).
    { intros q Hq. unfold pair_text. rewrite !app_length. specialize (Hq (S n)). pose proof (quote_length (fst q)). lia. }
    assert (HC : forall l, Forall (fun p => forall n, (weight (snd p) <= length (dumps n (snd p)))%nat) l ->
       (cost l <= length (concat (map (fun b => (lit "," ++ indent (S n)) ++ b) (map (pair_text n) l))))%nat).
    { unfold cost, list_sum. induction 1 as [|q l Hq Hl IHl]; [cbn; lia|]. cbn [map concat fold_right]. rewrite !app_length. specialize (HO q Hq). lia. }
    destruct HF as [|q l Hq Hl]; [cbn; lia|]. unfold cost, list_sum. cbn [map joined fold_right]. rewrite app_length. specialize (HO q Hq). specialize (HC l Hl). unfold cost, list_sum in HC. lia.
Qed.
Lemma loads_dumps : forall j, dictionary j -> loads (dumps 0%nat j) = Ok (tidy j).
Proof.
  intros j D. unfold loads. pose proof (skip_ws_dumps 0%nat j []) as E. rewrite app_nil_r in E. rewrite E.
  pose proof (reads_back_all j D 0%nat (S (length (dumps 0%nat j))) []) as H. rewrite app_nil_r in H. rewrite H; [reflexivity|]. pose proof (weight_length j 0%nat). lia.
Qed.

(** Following keys *)
Lemma dict_get_in : forall (A : Type) (l : list (text * A)) k v, NoDup (map fst l) -> (dict_get l k = Some v <-> In (k, v) l).
Proof.
  intros A. unfold dict_get. induction l as [|(k', v') l IH]; intros k v ND; [split; [discriminate|contradiction]|]. cbn [map fst] in ND. inversion ND as [|? ? N1 N2]; subst.
  cbn [find fst]. destruct (list_eq_dec ascii_dec k' k) as [E|E].
  - subst. cbn [snd]. split; [intros H; injection H as <-; left; reflexivity|]. intros [H|H]; [injection H as <-; reflexivity|]. destruct N1. exact (in_map fst _ _ H).
  - rewrite IH by exact N2. split; [intros H; right; exact H|]. intros [H|H]; [congruence|exact H].
Qed.
Lemma follow_obj : forall k p items, follow (k :: p) (JObj items) = match dict_get items k with Some v => follow p v | None => Nothing end.
Proof.
  intros k p items. unfold dict_get. induction items as [|(k', v) l IH]; [reflexivity|]. cbn [find fst]. 
  change (follow (k :: p) (JObj ((k', v) :: l))) with (if list_eq_dec ascii_dec k' k then follow p v else follow (k :: p) (JObj l)).
  destruct (list_eq_dec ascii_dec k' k); [reflexivity|]. exact IH.
Qed.
Lemma keys_tidied : forall items, map fst (map (fun p : text * json => (fst p, tidy (snd p))) items) = map fst items.
Proof. intros. rewrite map_map. reflexivity. Qed.
Lemma nodup_sorted : forall (A : Type) (l : list (text * A)), NoDup (map fst l) -> NoDup (map fst (isort by_key l)).
Proof. intros A l H. apply (Permutation_NoDup (l:=map fst l)); [|exact H]. apply Permutation_map. symmetry. apply isort_perm. Qed.
Lemma dict_get_ext : forall (A : Type) (l l' : list (text * A)) k, NoDup (map fst l) -> NoDup (map fst l') -> (forall v, In (k, v) l <-> In (k, v) l') -> dict_get l k = dict_get l' k.
Proof.
  intros A l l' k N N' H. destruct (dict_get l k) as [v|] eqn:E.
  - symmetry. apply dict_get_in; [exact N'|]. apply H. apply dict_get_in; assumption.
  - destruct (dict_get l' k) as [v|] eqn:E'; [|reflexivity]. apply dict_get_in in E'; [|exact N']. apply H in E'. apply (dict_get_in _ _ _ _ N) in E'. congruence.
Qed.
Lemma dict_get_tidy : forall items k, dict_get (map (fun p => (fst p, tidy (snd p))) items) k = option_map tidy (dict_get items k).
Proof.
  intros items k. unfold dict_get. induction items as [|(k', v) l IH]; [reflexivity|]. cbn [map find fst snd]. destruct (list_eq_dec ascii_dec k' k); [reflexivity|exact IH].
Qed.
Lemma dict_get_tidy_obj : forall items k, NoDup (map fst items) -> dict_get (isort by_key (map (fun p => (fst p, tidy (snd p))) items)) k = option_map tidy (dict_get items k).
Proof.
  intros items k ND. rewrite <- dict_get_tidy. apply dict_get_ext.
  - apply nodup_sorted. rewrite keys_tidied. exact ND.
  - rewrite keys_tidied. exact ND.
  - intros v. pose proof (isort_perm by_key (map (fun p => (fst p, tidy (snd p))) items)) as HP. split; intros H; [apply (Permutation_in _ HP H)|apply (Permutation_in _ (Permutation_sym HP) H)].
Qed.
Lemma follow_tidy : forall j, dictionary j -> forall p, follow p (tidy j) = follow p j.
Proof.
  induction j as [t|items IH] using json_ind'; intros D p; [reflexivity|]. apply dict_values in D. destruct D as [ND D].
  destruct p as [|k p]; [reflexivity|]. cbn [tidy]. rewrite !follow_obj, dict_get_tidy_obj by exact ND. destruct (dict_get items k) as [v|] eqn:E; [|reflexivity].
  apply dict_get_in in E; [|exact ND]. cbn [option_map]. rewrite Forall_forall in IH, D. exact (IH _ E (D _ E) p).
Qed.
Lemma dictionary_tidy : forall j, dictionary j -> dictionary (tidy j).
Proof.
  induction j as [t|items IH] using json_ind'; intros D; [exact I|]. apply dict_values in D. destruct D as [ND D]. cbn [tidy]. apply dict_values. split.
  - apply nodup_sorted. rewrite keys_tidied. exact ND.
  - rewrite Forall_forall in *. intros q Hq. apply (Permutation_in _ (isort_perm by_key _)) in Hq. apply in_map_iff in Hq. destruct Hq as (q0 & <- & Hq). exact (IH _ Hq (D _ Hq)).
Qed.

(** The text depends on what is found only. *)
Lemma sorted_same : forall (A : Type) (l l' : list (text * A)), StronglySorted (fun a b => by_key a b = true) l -> StronglySorted (fun a b => by_key a b = true) l' ->
  NoDup (map fst l) -> Permutation l l' -> l = l'.
Proof.
  intros A. induction l as [|x l IH]; intros l' S S' ND HP; [apply Permutation_nil in HP; symmetry; exact HP|].
  destruct l' as [|y l']; [apply Permutation_sym, Permutation_nil in HP; discriminate|].
  inversion S as [|? ? S1 S2]; inversion S' as [|? ? S1' S2']; subst. rewrite Forall_forall in S2, S2'.
  assert (E : x = y).
  { assert (Hx : In x (y :: l')) by (apply (Permutation_in _ HP); left; reflexivity). assert (Hy : In y (x :: l)) by (apply (Permutation_in _ (Permutation_sym HP)); left; reflexivity).
    destruct Hx as [Hx|Hx]; [congruence|]. destruct Hy as [Hy|Hy]; [congruence|].
    assert (K : fst x = fst y) by (apply text_leb_antisym; [exact (S2 _ Hy)|exact (S2' _ Hx)]).
    cbn [map] in ND. inversion ND as [|? ? N1 N2]; subst. destruct N1. rewrite K. apply in_map. exact Hy. }
  subst y. f_equal. apply IH; auto.
  - cbn [map] in ND. inversion ND; assumption.
  - apply Permutation_cons_inv in HP. exact HP.
Qed.
Lemma by_key_sorted : forall (A : Type) (l : list (text * A)), StronglySorted (fun a b => by_key a b = true) (isort by_key l).
Proof.
  intros A l. apply isort_sorted; unfold by_key; intros; [apply text_leb_total|eapply text_leb_trans; eassumption].
Qed.
Lemma follow_nil : forall j j', follow [] j = follow [] j' -> match j, j' with JStr t, JStr t' => t = t' | JObj _, JObj _ => True | _, _ => False end.
Proof. intros [t|l] [t'|l'] H; cbn [follow] in H; try discriminate; [injection H as E; exact E|exact I]. Qed.
Lemma in_nodup_fst : forall (A : Type) (l : list (text * A)), NoDup (map fst l) -> NoDup l.
Proof. intros A l. apply NoDup_map_inv. Qed.
Lemma follow_some : forall v, follow [] v <> Nothing.
Proof. intros [t|l]; discriminate. Qed.
Lemma tidy_ext : forall j j', dictionary j -> dictionary j' -> (forall p, follow p j = follow p j') -> tidy j = tidy j'.
Proof.
  induction j as [t|items IH] using json_ind'; intros j' D D' H; pose proof (follow_nil _ _ (H [])) as H0.
  - destruct j' as [t'|l']; [subst; reflexivity|contradiction].
  - destruct j' as [t'|items']; [contradiction|]. apply dict_values in D, D'. destruct D as [ND D], D' as [ND' D']. rewrite Forall_forall in IH, D, D'. cbn [tidy]. f_equal.
    apply sorted_same; try apply by_key_sorted; [apply nodup_sorted; rewrite keys_tidied; exact ND|].
    etransitivity; [apply isort_perm|]. etransitivity; [|symmetry; apply isort_perm].
    apply NoDup_Permutation; [apply in_nodup_fst; rewrite keys_tidied; exact ND|apply in_nodup_fst; rewrite keys_tidied; exact ND'|].
    assert (HK : forall k, match dict_get items k, dict_get items' k with Some v, Some v' => forall p, follow p v = follow p v' | None, None => True | _, _ => False end).
    { intros k. assert (Hk : forall p, follow (k :: p) (JObj items) = follow (k :: p) (JObj items')) by (intros; apply H).
      destruct (dict_get items k) as [v|] eqn:E, (dict_get items' k) as [v'|] eqn:E'; try exact I.
      - intros p. specialize (Hk p). rewrite !follow_obj, E, E' in Hk. exact Hk.
      - specialize (Hk []). rewrite !follow_obj, E, E' in Hk. exact (follow_some v Hk).
      - specialize (Hk []). rewrite !follow_obj, E, E' in Hk. exact (follow_some v' (eq_sym Hk)). }
    intros q. rewrite !in_map_iff. split.
    + intros ((k, v) & <- & Hq). specialize (HK k). pose proof (proj2 (dict_get_in _ _ _ _ ND) Hq) as E. rewrite E in HK. destruct (dict_get items' k) as [v'|] eqn:E'; [|contradiction].
      apply (dict_get_in _ _ _ _ ND') in E'. exists (k, v'). split; [|exact E']. cbn [fst snd]. f_equal. symmetry. exact (IH _ Hq v' (D _ Hq) (D' _ E') HK).
    + intros ((k, v') & <- & Hq). specialize (HK k). pose proof (proj2 (dict_get_in _ _ _ _ ND') Hq) as E'. rewrite E' in HK. destruct (dict_get items k) as [v|] eqn:E; [|contradiction].
      apply (dict_get_in _ _ _ _ ND) in E. exists (k, v). split; [|exact E]. cbn [fst snd]. f_equal. exact (IH _ E v' (D _ E) (D' _ Hq) HK).
Qed.
Lemma dumps_tidy : forall j, dictionary j -> forall n, dumps n (tidy j) = dumps n j.
Proof.
  induction j as [t|items IH] using json_ind'; intros D n; [reflexivity|]. apply dict_values in D. destruct D as [ND D]. rewrite Forall_forall in IH, D.
  destruct items as [|p0 items0] eqn:Ei; [reflexivity|]. rewrite <- Ei in *. assert (NE : items <> []) by (rewrite Ei; discriminate). clear Ei.
  rewrite tidy_obj, !dumps_obj; [|exact NE|].
  2:{ intros C. apply map_eq_nil in C. pose proof (isort_perm by_key items) as HP. rewrite C in HP. apply Permutation_nil in HP. congruence. }
  do 2 f_equal. f_equal. f_equal. rewrite isort_by_key_map.
  replace (isort by_key (isort by_key items)) with (isort by_key items).
  2:{ apply sorted_same; try apply by_key_sorted; [apply nodup_sorted; exact ND|symmetry; apply isort_perm]. }
  rewrite map_map. apply map_ext_in. intros (k, v) Hq. apply (Permutation_in _ (isort_perm by_key items)) in Hq. unfold pair_text. cbn [fst snd]. f_equal. f_equal. exact (IH _ Hq (D _ Hq) (S n)).
Qed.

Lemma round_trip_lemma : forall j, dictionary j -> exists j', loads (dumps 0%nat j) = Ok j' /\ dictionary j' /\ forall p, follow p j' = follow p j.
Proof. intros j D. exists (tidy j). split; [apply loads_dumps; exact D|]. split; [apply dictionary_tidy; exact D|apply follow_tidy; exact D]. Qed.
Lemma same_text_lemma : forall j j', dictionary j -> dictionary j' -> (dumps 0%nat j = dumps 0%nat j' <-> forall p, follow p j = follow p j').
Proof.
  intros j j' D D'. split.
  - intros E p. assert (T : tidy j = tidy j').
    { pose proof (loads_dumps j D) as H. rewrite E, (loads_dumps j' D') in H. injection H as H. symmetry. exact H. }
    rewrite <- (follow_tidy j D), <- (follow_tidy j' D'), T. reflexivity.
  - intros H. rewrite <- (dumps_tidy j D), <- (dumps_tidy j' D'), (tidy_ext j j' D D' H). reflexivity.
Qed.
