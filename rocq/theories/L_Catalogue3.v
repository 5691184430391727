(** Proofs for C79: json.load accepts the grammar of S_Catalogue. *)
From Coq Require Import Ascii String List ZArith Lia Bool.
From Verif Require Import Base Lists M_Text M_Fetcher M_Catalogue S_Catalogue L_Catalogue L_Text.
Import ListNotations.
Local Open Scope Z_scope.

Lemma code_of : forall c, code c = Z.of_nat (nat_of_ascii c).
Proof. reflexivity. Qed.
Lemma code_is : forall c n, code c = Z.of_nat n -> c = ascii_of_nat n.
Proof. intros c n H. unfold code in H. apply Nat2Z.inj in H. rewrite <- H. symmetry. apply ascii_nat_embedding. Qed.

(** Blanks *)
Lemma blank_iff : forall c, blank c <-> json_space c = true.
Proof.
  intros c. unfold blank, json_space. rewrite !orb_true_iff, !Z.eqb_eq. unfold code. cbn [In]. split.
  - intros [H|[H|[H|[H|[]]]]]; lia.
  - intros H. assert (nat_of_ascii c = 32 \/ nat_of_ascii c = 9 \/ nat_of_ascii c = 10 \/ nat_of_ascii c = 13)%nat by lia. lia.
Qed.
Lemma skip_blanks : forall w x, blanks w -> skip_ws (w ++ x) = skip_ws x.
Proof. induction 1 as [|c w B _ IH]; [reflexivity|]. cbn [app]. rewrite skip_ws_space; [exact IH|apply blank_iff, B]. Qed.
Lemma skip_split : forall x, exists w, blanks w /\ x = w ++ skip_ws x /\ (forall c r, skip_ws x = c :: r -> json_space c = false).
Proof.
  induction x as [|c x (w & W & E & H)]; [exists []; split; [constructor|split; [reflexivity|discriminate]]|].
  destruct (json_space c) eqn:J.
  - exists (c :: w). split; [constructor; [apply blank_iff, J|exact W]|]. rewrite skip_ws_space by exact J. split; [cbn [app]; rewrite <- E; reflexivity|exact H].
  - exists []. split; [constructor|]. rewrite skip_ws_cons by exact J. split; [reflexivity|]. intros d r [= <- _]. exact J.
Qed.

(** Strings *)
Lemma hex_val_list : forall c, match hex_val c with
  | Some z => (0 <=? z) && existsb (fun p => Ascii.eqb (fst p) c && Nat.eqb (snd p) (Z.to_nat z)) hex_chars
  | None => true end = true.
Proof. intros [[] [] [] [] [] [] [] []]; reflexivity. Qed.
Lemma hex_val_iff : forall c n, hex_val c = Some (Z.of_nat n) <-> In (c, n) hex_chars.
Proof.
  intros c n. split.
  - intros H. pose proof (hex_val_list c) as L. rewrite H in L. apply andb_true_iff in L as [_ L]. apply existsb_exists in L as ([d m] & I & E). cbn [fst snd] in E.
    apply andb_true_iff in E as [E1 E2]. apply Ascii.eqb_eq in E1. apply Nat.eqb_eq in E2. rewrite Nat2Z.id in E2. subst. exact I.
  - intros H. repeat (destruct H as [[= <- <-]|H]; [reflexivity|]). destruct H.
Qed.
Lemma hex_val_pos : forall c z, hex_val c = Some z -> 0 <= z.
Proof. intros c z H. pose proof (hex_val_list c) as L. rewrite H in L. apply andb_true_iff in L as [L _]. apply Z.leb_le, L. Qed.
Lemma scan_u a b d e z : scan_string ("\" :: "u" :: a :: b :: d :: e :: z)%char
  = match hex_val a, hex_val b, hex_val d, hex_val e with
    | Some 0, Some 0, Some x, Some y => do s <- scan_string z; Ok (ascii_of_nat (Z.to_nat (16 * x + y)) :: fst s, snd s)
    | _, _, _, _ => Err ValueError
    end.
Proof. reflexivity. Qed.
Definition short_case (e : ascii) (z : text) : res (text * text) :=
  let k := code e in
  let put v := do s <- scan_string z; Ok (ascii_of_nat v :: fst s, snd s) in
  if k =? 34 then put 34%nat else if k =? 92 then put 92%nat else if k =? 47 then put 47%nat else if k =? 98 then put 8%nat
  else if k =? 102 then put 12%nat else if k =? 110 then put 10%nat else if k =? 114 then put 13%nat else if k =? 116 then put 9%nat else Err ValueError.
Lemma scan_e e z : e <> "u"%char -> scan_string ("\"%char :: e :: z) = short_case e z.
Proof. intros H. destruct e as [[] [] [] [] [] [] [] []]; try reflexivity. contradiction H. reflexivity. Qed.
Lemma scan_c c z : code c <> 34 -> code c <> 92 -> scan_string (c :: z) = if code c <? 32 then Err ValueError else do s <- scan_string z; Ok (c :: fst s, snd s).
Proof. intros H1 H2. apply Z.eqb_neq in H1. apply Z.eqb_neq in H2. cbn [scan_string]. rewrite H1, H2. reflexivity. Qed.
Lemma scan_u_short z : (length z < 4)%nat -> scan_string ("\" :: "u" :: z)%char = Err ValueError.
Proof. intros L. destruct z as [|a [|b [|d [|e z]]]]; try reflexivity. cbn [length] in L. lia. Qed.
Lemma scan_body : forall b t r, body b t -> scan_string (b ++ """"%char :: r) = Ok (t, r).
Proof.
  intros b t r H. induction H as [|c b t H1 H2 H3 _ IH|e n b t H _ IH|h l x y b t Hh Hl _ IH]; cbn [app].
  - reflexivity.
  - rewrite scan_c, IH; [|intros E; destruct H2; apply (code_is _ 34), E|intros E; destruct H3; apply (code_is _ 92), E].
    destruct (Z.ltb_spec (code c) 32) as [E3|E3]; [unfold code in E3; lia|]. reflexivity.
  - repeat (destruct H as [[= <- <-]|H]; [rewrite scan_e by discriminate; unfold short_case; rewrite IH; reflexivity|]). destruct H.
  - change (lit "\u00") with ["\"; "u"; "0"; "0"]%char. cbn [app]. rewrite scan_u, IH.
    apply hex_val_iff in Hh. apply hex_val_iff in Hl. rewrite Hh, Hl. change (hex_val "0") with (Some 0). cbn [bind fst snd].
    replace (Z.to_nat (16 * Z.of_nat x + Z.of_nat y)) with (16 * x + y)%nat by lia. reflexivity.
Qed.
Lemma body_scan : forall n l t r, (length l < n)%nat -> scan_string l = Ok (t, r) -> exists b, l = b ++ """"%char :: r /\ body b t.
Proof.
  induction n as [|n IH]; [lia|]. intros [|c l] t r L H; [discriminate|]. cbn [length] in L.
  destruct (Z.eqb_spec (code c) 34) as [E|E].
  { rewrite (code_is c 34 E) in H. injection H as <- <-. exists []. split; [|constructor]. rewrite (code_is c 34 E). reflexivity. }
  destruct (Z.eqb_spec (code c) 92) as [E2|E2].
  { rewrite (code_is c 92 E2) in *. change (ascii_of_nat 92) with "\"%char. change (ascii_of_nat 92) with "\"%char in H. destruct l as [|e l]; [discriminate H|]. cbn [length] in L.
    assert (SH : forall v, In (e, v) short_escapes -> (do s <- scan_string l; Ok (ascii_of_nat v :: fst s, snd s)) = Ok (t, r) ->
      exists b, "\"%char :: e :: l = b ++ """"%char :: r /\ body b t).
    { intros v Hv K. destruct (scan_string l) as [[t1 r1]|] eqn:S; [|discriminate]. injection K as <- <-.
      destruct (IH l t1 r1 ltac:(lia) S) as (b & -> & B). exists ("\"%char :: e :: b). split; [reflexivity|]. apply body_short; [exact Hv|exact B]. }
    destruct (ascii_dec e "u"%char) as [->|NU].
    - destruct l as [|a [|b [|d [|g l]]]]; try (rewrite scan_u_short in H by (cbn [length]; lia); discriminate H). cbn [length] in L. rewrite scan_u in H.
      destruct (hex_val a) as [[| |]|] eqn:HA; try discriminate. destruct (hex_val b) as [[| |]|] eqn:HB; try discriminate.
      destruct (hex_val d) as [x|] eqn:HD; [|discriminate]. destruct (hex_val g) as [y|] eqn:HG; [|discriminate].
      destruct (scan_string l) as [[t1 r1]|] eqn:S; [|discriminate]. cbn [bind fst snd] in H.
      set (q := Z.to_nat (16 * x + y)) in H. assert (Q : q = Z.to_nat (16 * x + y)) by reflexivity. clearbody q. injection H as <- <-.
      destruct (IH l t1 r1 ltac:(lia) S) as (b' & -> & B).
      pose proof (hex_val_pos _ _ HD). pose proof (hex_val_pos _ _ HG).
      assert (A0 : a = "0"%char). { apply (hex_val_iff a 0) in HA. repeat (destruct HA as [HA|HA]; [first [injection HA as <-; reflexivity|discriminate HA]|]). destruct HA. }
      assert (B0 : b = "0"%char). { apply (hex_val_iff b 0) in HB. repeat (destruct HB as [HB|HB]; [first [injection HB as <-; reflexivity|discriminate HB]|]). destruct HB. }
      subst a b. exists (lit "\u00" ++ d :: g :: b'). split; [reflexivity|].
      replace q with (16 * Z.to_nat x + Z.to_nat y)%nat by lia.
      apply body_hex; [apply hex_val_iff; rewrite HD; f_equal; lia|apply hex_val_iff; rewrite HG; f_equal; lia|exact B].
    - rewrite scan_e in H by exact NU. unfold short_case in H. rename H into H'.
      cbv zeta in H'.
      repeat match type of H' with (if code e =? ?m then _ else _) = _ =>
        let Q := fresh in destruct (Z.eqb_spec (code e) m) as [Q|Q]; [eapply SH; [|exact H']; rewrite (code_is e (Z.to_nat m) Q); cbn [In short_escapes]; repeat (first [left; reflexivity | right])|] end.
      discriminate H'. }
  rewrite scan_c in H by assumption. destruct (Z.ltb_spec (code c) 32) as [E3|E3]; [discriminate H|].
  destruct (scan_string l) as [[t1 r1]|] eqn:S; [|discriminate]. injection H as <- <-.
  destruct (IH l t1 r1 ltac:(lia) S) as (b & -> & B). exists (c :: b). split; [reflexivity|]. apply body_char; [unfold code in E3; lia| | |exact B].
  - intros ->. apply E. reflexivity.
  - intros ->. apply E2. reflexivity.
Qed.

(** Dictionaries *)
Notation same k := (fun p : text * json => if list_eq_dec ascii_dec (fst p) k then true else false).
Definition set_all (l acc : list (text * json)) : list (text * json) := fold_left (fun d p => dict_set d (fst p) (snd p)) l acc.
Lemma binding_cons k p l : binding k (p :: l) = if list_eq_dec ascii_dec (fst p) k then Some (snd p) else binding k l.
Proof. destruct p as [a v]. unfold binding. cbn [find fst snd]. destruct (list_eq_dec ascii_dec a k); reflexivity. Qed.
Lemma binding_app k l l' : binding k (l ++ l') = match binding k l with Some v => Some v | None => binding k l' end.
Proof. induction l as [|p l IH]; [reflexivity|]. cbn [app]. rewrite !binding_cons. destruct (list_eq_dec ascii_dec (fst p) k); [reflexivity|exact IH]. Qed.
Lemma binding_set d k v k' : binding k' (dict_set d k v) = if list_eq_dec ascii_dec k k' then Some v else binding k' d.
Proof.
  induction d as [|[q w] d IH]; cbn [dict_set]; [rewrite binding_cons; reflexivity|].
  destruct (list_eq_dec ascii_dec q k) as [->|NE]; rewrite !binding_cons; cbn [fst snd]; [destruct (list_eq_dec ascii_dec k k'); reflexivity|].
  rewrite IH. destruct (list_eq_dec ascii_dec q k') as [->|]; [|reflexivity]. destruct (list_eq_dec ascii_dec k k'); [congruence|reflexivity].
Qed.
Lemma keys_set (d : list (text * json)) k v : map fst (dict_set d k v) = if in_dec (list_eq_dec ascii_dec) k (map fst d) then map fst d else map fst d ++ [k].
Proof.
  induction d as [|[q w] d IH]; cbn [dict_set map fst]; [reflexivity|].
  destruct (list_eq_dec ascii_dec q k) as [->|NE]; cbn [map fst].
  - destruct (in_dec (list_eq_dec ascii_dec) k (k :: map fst d)) as [I|I]; [reflexivity|destruct I; left; reflexivity].
  - rewrite IH. destruct (in_dec (list_eq_dec ascii_dec) k (map fst d)) as [I|I]; destruct (in_dec (list_eq_dec ascii_dec) k (q :: map fst d)) as [J|J]; try reflexivity.
    + destruct J. right. exact I.
    + destruct J as [J|J]; [congruence|contradiction].
Qed.
Lemma set_all_snoc l p acc : set_all (l ++ [p]) acc = dict_set (set_all l acc) (fst p) (snd p).
Proof. unfold set_all. rewrite fold_left_app. reflexivity. Qed.
Lemma set_all_collects l : collects l (set_all l []).
Proof.
  induction l as [|p l [K B]] using rev_ind; [split; [reflexivity|intros; reflexivity]|]. rewrite set_all_snoc. split.
  - rewrite keys_set, map_app, rev_app_distr. cbn [map rev app nodup]. rewrite K.
    destruct (in_dec (list_eq_dec ascii_dec) (fst p) (rev (map fst l))) as [I|I];
      destruct (in_dec (list_eq_dec ascii_dec) (fst p) (rev (nodup (list_eq_dec ascii_dec) (rev (map fst l))))) as [J|J]; try reflexivity.
    + destruct J. apply -> in_rev. apply nodup_In. exact I.
    + destruct I. apply in_rev in J. apply nodup_In in J. exact J.
  - intros k. rewrite binding_set, rev_app_distr. cbn [rev app]. rewrite binding_cons. destruct (list_eq_dec ascii_dec (fst p) k); [reflexivity|apply B].
Qed.
Lemma binding_ext d d' : NoDup (map fst d) -> map fst d = map fst d' -> (forall k, binding k d = binding k d') -> d = d'.
Proof.
  revert d'. induction d as [|[k v] d IH]; intros [|[k' v'] d'] N K B; try discriminate; [reflexivity|].
  cbn [map fst] in *. injection K as <- K. inversion_clear N as [|? ? NI N'].
  pose proof (B k) as B0. rewrite !binding_cons in B0. cbn [fst snd] in B0. destruct (list_eq_dec ascii_dec k k); [|contradiction]. injection B0 as <-. f_equal.
  apply IH; [exact N'|exact K|]. intros q. pose proof (B q) as Bq. rewrite !binding_cons in Bq. cbn [fst snd] in Bq.
  destruct (list_eq_dec ascii_dec k q) as [<-|]; [|exact Bq].
  assert (A : forall l : list (text * json), ~ In k (map fst l) -> binding k l = None).
  { clear. induction l as [|p l IH]; intros H; [reflexivity|]. rewrite binding_cons. cbn [map In] in H. destruct (list_eq_dec ascii_dec (fst p) k); [tauto|]. apply IH. tauto. }
  rewrite !A; [reflexivity|rewrite <- K; exact NI|exact NI].
Qed.
Lemma collects_unique l d d' : collects l d -> collects l d' -> d = d'.
Proof.
  intros [K B] [K' B']. apply binding_ext; [|congruence|intros k; rewrite B, B'; reflexivity].
  rewrite K. apply NoDup_rev, NoDup_nodup.
Qed.

(** Values *)
Scheme value_rect2 := Induction for value_text Sort Prop
  with items_rect2 := Induction for items_text Sort Prop.
Lemma value_first : forall x v, value_text x v -> forall r, skip_ws (x ++ r) = x ++ r.
Proof. intros x v H r. inversion H; subst; apply skip_ws_cons; reflexivity. Qed.
Lemma items_first : forall x l, items_text x l -> forall r, exists y, x ++ r = """"%char :: y /\ skip_ws (x ++ r) = x ++ r.
Proof. intros x l H r. inversion H; subst; (eexists; split; [reflexivity|apply skip_ws_cons; reflexivity]). Qed.

Definition reads (x : text) (v : json) : Prop := forall fuel r, (length x < fuel)%nat -> scan_value fuel (x ++ r) = Ok (v, r).
Definition reads_items (x : text) (l : list (text * json)) : Prop :=
  forall fuel acc r, (length x < fuel)%nat -> scan_items fuel acc (x ++ "}"%char :: r) = Ok (JObj (set_all l acc), r).
Lemma scan_item fuel acc kb k w1 w2 x v z : body kb k -> blanks w1 -> blanks w2 -> value_text x v -> scan_value fuel (x ++ z) = Ok (v, z) ->
  scan_items (S fuel) acc (quoted kb ++ w1 ++ lit ":" ++ w2 ++ x ++ z)
  = let acc := dict_set acc k v in
    match skip_ws z with
    | e :: r2 => if code e =? 125 then Ok (JObj acc, r2) else if code e =? 44 then scan_items fuel acc (skip_ws r2) else Err ValueError
    | [] => Err ValueError
    end.
Proof.
  intros HK H1 H2 HV RV. unfold quoted. change (lit """") with [""""%char]. cbn [app scan_items]. change (code """" =? 34) with true. cbv iota.
  rewrite <- !app_assoc. cbn [app]. rewrite (scan_body kb k _ HK). cbn [bind fst snd]. rewrite skip_blanks by exact H1.
  change (lit ":") with [":"%char]. cbn [app]. rewrite skip_ws_cons by reflexivity. change (code ":" =? 58) with true. cbv iota.
  rewrite skip_blanks by exact H2. rewrite (value_first x v HV). rewrite RV. cbn [bind fst snd]. reflexivity.
Qed.
Lemma reads_all : forall x v, value_text x v -> reads x v.
Proof.
  apply (value_rect2 (fun x v _ => reads x v) (fun x l _ => reads_items x l)).
  - intros b t H fuel r L. destruct fuel as [|fuel]; [lia|]. unfold quoted. change (lit """") with [""""%char]. cbn [app scan_value]. change (code """" =? 34) with true. cbv iota.
    rewrite <- app_assoc. cbn [app]. rewrite (scan_body b t r H). reflexivity.
  - intros w W fuel r L. destruct fuel as [|fuel]; [lia|]. change (lit "{") with ["{"%char]. change (lit "}") with ["}"%char]. cbn [app scan_value].
    change (code "{" =? 34) with false. change (code "{" =? 123) with true. cbv iota. rewrite <- app_assoc. cbn [app]. rewrite skip_blanks by exact W. rewrite skip_ws_cons by reflexivity. reflexivity.
  - intros w x l d W HI IH C fuel r L. destruct fuel as [|fuel]; [lia|]. change (lit "{") with ["{"%char]. change (lit "}") with ["}"%char]. cbn [app scan_value].
    change (code "{" =? 34) with false. change (code "{" =? 123) with true. cbv iota. rewrite <- !app_assoc. cbn [app]. rewrite skip_blanks by exact W.
    destruct (items_first x l HI ("}"%char :: r)) as (y & Y1 & Y2). rewrite Y2, Y1. change (code """" =? 125) with false. cbv iota. rewrite <- Y1.
    rewrite IH. 2:{ rewrite !app_length in L. change (length (lit "{")) with 1%nat in L. lia. }
    rewrite (collects_unique l d (set_all l []) C (set_all_collects l)). reflexivity.
  - intros kb k w1 w2 x v w3 HK H1 H2 HV IV H3 fuel acc r L. destruct fuel as [|fuel]; [lia|].
    replace ((quoted kb ++ w1 ++ lit ":" ++ w2 ++ x ++ w3) ++ "}"%char :: r) with (quoted kb ++ w1 ++ lit ":" ++ w2 ++ x ++ (w3 ++ "}"%char :: r)) by (rewrite <- !app_assoc; reflexivity).
    rewrite (scan_item fuel acc kb k w1 w2 x v _ HK H1 H2 HV). 2:{ apply IV. unfold quoted in L. rewrite !app_length in L. change (length (lit """")) with 1%nat in L. lia. }
    cbv zeta. rewrite skip_blanks by exact H3. rewrite skip_ws_cons by reflexivity. reflexivity.
  - intros kb k w1 w2 x v w3 w4 y l HK H1 H2 HV IV H3 H4 HI II fuel acc r L. destruct fuel as [|fuel]; [lia|].
    replace ((quoted kb ++ w1 ++ lit ":" ++ w2 ++ x ++ w3 ++ lit "," ++ w4 ++ y) ++ "}"%char :: r) with (quoted kb ++ w1 ++ lit ":" ++ w2 ++ x ++ (w3 ++ ","%char :: w4 ++ y ++ "}"%char :: r)) by (rewrite <- !app_assoc; reflexivity).
    unfold quoted in L. rewrite !app_length in L. change (length (lit """")) with 1%nat in L.
    rewrite (scan_item fuel acc kb k w1 w2 x v _ HK H1 H2 HV). 2:{ apply IV. lia. }
    cbv zeta. rewrite skip_blanks by exact H3. rewrite skip_ws_cons by reflexivity. change (code "," =? 125) with false. change (code "," =? 44) with true. cbv iota.
    rewrite skip_blanks by exact H4. destruct (items_first y l HI ("}"%char :: r)) as (q & _ & Y2). rewrite Y2. rewrite II by lia. reflexivity.
Qed.

Lemma reads_only : forall fuel,
  (forall x v r, scan_value fuel x = Ok (v, r) -> exists t, x = t ++ r /\ value_text t v) /\
  (forall acc x v r, scan_items fuel acc x = Ok (v, r) -> exists t l, x = t ++ "}"%char :: r /\ items_text t l /\ v = JObj (set_all l acc)).
Proof.
  induction fuel as [|fuel [IV II]]; [split; [intros x v r H; discriminate|intros acc x v r H; discriminate]|]. split.
  - intros [|c x] v r H; [discriminate|]. cbn [scan_value] in H. destruct (Z.eqb_spec (code c) 34) as [E|E].
    { destruct (scan_string x) as [[t r1]|] eqn:S; [|discriminate]. injection H as <- <-. destruct (body_scan (1 + length x) x t r1 ltac:(lia) S) as (b & -> & B).
      exists (quoted b). split; [|constructor; exact B]. rewrite (code_is c 34 E). unfold quoted. rewrite <- !app_assoc. reflexivity. }
    destruct (Z.eqb_spec (code c) 123) as [E2|E2]; [|discriminate]. rewrite (code_is c 123 E2).
    destruct (skip_split x) as (w & W & X & _). destruct (skip_ws x) as [|d x'] eqn:S; [discriminate|]. rewrite X.
    destruct (Z.eqb_spec (code d) 125) as [E3|E3].
    + injection H as <- <-. exists (lit "{" ++ w ++ lit "}"). split; [|constructor; exact W]. rewrite (code_is d 125 E3), <- !app_assoc. reflexivity.
    + destruct (II _ _ _ _ H) as (t & l & Y & HI & ->). exists (lit "{" ++ w ++ t ++ lit "}"). split; [rewrite Y, <- !app_assoc; reflexivity|].
      apply (text_object w t l); [exact W|exact HI|apply set_all_collects].
  - intros acc [|c x] v r H; [discriminate|]. cbn [scan_items] in H. destruct (Z.eqb_spec (code c) 34) as [E|E]; [|discriminate]. rewrite (code_is c 34 E).
    destruct (scan_string x) as [[k r1]|] eqn:S; [|discriminate]. destruct (body_scan (1 + length x) x k r1 ltac:(lia) S) as (kb & -> & HK). cbn [bind fst snd] in H.
    destruct (skip_split r1) as (w1 & H1 & X1 & _). destruct (skip_ws r1) as [|d r2] eqn:S1; [discriminate|].
    destruct (Z.eqb_spec (code d) 58) as [E1|E1]; [|discriminate]. rewrite (code_is d 58 E1) in X1.
    destruct (skip_split r2) as (w2 & H2 & X2 & _). destruct (scan_value fuel (skip_ws r2)) as [[v1 r3]|] eqn:SV; [|discriminate]. cbn [bind fst snd] in H.
    destruct (IV _ _ _ SV) as (t & X3 & HV). destruct (skip_split r3) as (w3 & H3 & X4 & _). destruct (skip_ws r3) as [|e r4] eqn:S3; [discriminate|].
    destruct (Z.eqb_spec (code e) 125) as [E4|E4].
    + injection H as <- <-. exists (quoted kb ++ w1 ++ lit ":" ++ w2 ++ t ++ w3), [(k, v1)]. split; [|split; [constructor; assumption|reflexivity]].
      rewrite X1, X2, X3, X4, (code_is e 125 E4). unfold quoted. rewrite <- !app_assoc. reflexivity.
    + destruct (Z.eqb_spec (code e) 44) as [E5|E5]; [|discriminate]. destruct (skip_split r4) as (w4 & H4 & X5 & _).
      destruct (II _ _ _ _ H) as (y & l & Y & HI & ->). exists (quoted kb ++ w1 ++ lit ":" ++ w2 ++ t ++ w3 ++ lit "," ++ w4 ++ y), ((k, v1) :: l).
      split; [|split; [constructor; assumption|reflexivity]].
      rewrite X1, X2, X3, X4, (code_is e 44 E5), X5, Y. unfold quoted. rewrite <- !app_assoc. reflexivity.
Qed.

Lemma skip_all w : blanks w -> skip_ws w = [].
Proof. intros H. rewrite <- (app_nil_r w), skip_blanks by exact H. reflexivity. Qed.
Theorem C79_reader_lemma : forall t j, loads t = Ok j <-> document t j.
Proof.
  intros t j. unfold loads. split.
  - intros H. destruct (skip_split t) as (w & W & X & _). destruct (scan_value (S (length t)) (skip_ws t)) as [[v r]|] eqn:S; [|discriminate]. cbn [bind fst snd] in H.
    destruct (proj1 (reads_only _) _ _ _ S) as (x & X2 & HV). destruct (skip_split r) as (w' & W' & X3 & _). destruct (skip_ws r); [|discriminate]. injection H as <-.
    exists w, x, w'. split; [exact W|]. split; [exact HV|]. split; [exact W'|]. rewrite X, X2, X3 at 1. rewrite app_nil_r. reflexivity.
  - intros (w & x & w' & W & HV & W' & ->). rewrite skip_blanks by exact W. rewrite (value_first x j HV).
    rewrite (reads_all x j HV). 2:{ rewrite !app_length. lia. }
    cbn [bind fst snd]. rewrite (skip_all w' W'). reflexivity.
Qed.

(** Entries *)
Lemma parts_joined : forall l cur, joined (lit "/") (parts_from cur l) = rev cur ++ l.
Proof.
  induction l as [|c l IH]; intros cur; cbn [parts_from joined]; [reflexivity|].
  destruct (Z.eqb_spec (code c) 47) as [E|E].
  - cbn [joined]. rewrite (code_is c 47 E). specialize (IH []). cbn [rev app] in IH.
    assert (NE : parts_from [] l <> []). { destruct l as [|d l]; [discriminate|]. cbn [parts_from]. destruct (code d =? 47); [discriminate|]. clear. revert d. generalize (@nil ascii). induction l as [|e l IHl]; intros q d; cbn [parts_from]; [discriminate|]. destruct (code e =? 47); [discriminate|]. apply (IHl (d :: q) e). }
    destruct (parts_from [] l) as [|a q] eqn:P; [contradiction|]. cbn [map concat joined] in *. f_equal. rewrite <- IH. rewrite <- !app_assoc. reflexivity.
  - rewrite IH. cbn [rev]. rewrite <- app_assoc. reflexivity.
Qed.
Lemma parts_cut : forall l cur, ~ In "/"%char cur -> parts_from cur l <> [] /\ forall x, In x (parts_from cur l) -> ~ In "/"%char x.
Proof.
  induction l as [|c l IH]; intros cur H; cbn [parts_from].
  - split; [discriminate|]. intros x [<-|[]]. rewrite <- in_rev. exact H.
  - destruct (Z.eqb_spec (code c) 47) as [E|E].
    + split; [discriminate|]. intros x [<-|I]; [rewrite <- in_rev; exact H|]. exact (proj2 (IH [] (fun f => f)) x I).
    + apply IH. intros [I|I]; [apply E; rewrite I; reflexivity|exact (H I)].
Qed.
Lemma cut_parts t : cut (parts t) t.
Proof.
  unfold parts. destruct (parts_cut t [] (fun f => f)) as [N H]. split; [exact N|]. split; [exact H|].
  pose proof (parts_joined t []) as J. cbn [rev app] in J. rewrite <- J at 1. destruct (parts_from [] t); [contradiction|]. reflexivity.
Qed.
Lemma cut_unique : forall p q t, cut p t -> cut q t -> p = q.
Proof.
  assert (F : forall x y a b : text, ~ In "/"%char x -> ~ In "/"%char y -> (a = [] \/ exists a', a = "/"%char :: a') -> (b = [] \/ exists b', b = "/"%char :: b') -> x ++ a = y ++ b -> x = y /\ a = b).
  { induction x as [|c x IH]; intros [|d y] a b HX HY HA HB E; cbn [app] in E.
    - auto.
    - subst a. destruct HA as [HA|(a' & HA)]; [discriminate|]. injection HA as -> _. destruct HY. left. reflexivity.
    - subst b. destruct HB as [HB|(b' & HB)]; [discriminate|]. injection HB as -> _. destruct HX. left. reflexivity.
    - injection E as <- E. destruct (IH y a b) as [-> ->]; auto; intros I; [apply HX|apply HY]; right; exact I. }
  assert (G : forall p : path, concat (map (fun x => "/"%char :: x) p) = [] \/ exists a, concat (map (fun x => "/"%char :: x) p) = "/"%char :: a).
  { intros [|x p]; [left; reflexivity|right]. eexists. reflexivity. }
  intros [|x p] q t (NP & HP & EP); [contradiction|]. clear NP. revert x q t HP EP. induction p as [|y p IH]; intros x [|x' q] t HP EP (NQ & HQ & EQ); try contradiction.
  - cbn [hd tl] in *. rewrite EP in EQ. apply F in EQ as [-> E]; auto using in_eq. destruct q as [|z q]; [reflexivity|discriminate].
  - cbn [hd tl] in *. rewrite EP in EQ. apply F in EQ as [-> E]; auto using in_eq. destruct q as [|z q]; [discriminate|]. cbn [map concat] in E. injection E as E. f_equal.
    apply (IH y (z :: q) (y ++ concat (map (fun x => "/"%char :: x) p))); [intros w I; apply HP; right; exact I|reflexivity|].
    split; [discriminate|]. split; [intros w I; apply HQ; right; exact I|exact E].
Qed.
Lemma says_need item k t : need item k = Ok t <-> says item k t.
Proof.
  unfold need, says. rewrite follow_obj. destruct (dict_get item (lit k)) as [[u|d]|]; cbn [follow]; split; intros H; try discriminate; [injection H as ->; reflexivity|injection H as ->; reflexivity].
Qed.
Lemma says_may item k t : may item k = Some t <-> says item k t.
Proof.
  unfold may, says. rewrite follow_obj. destruct (dict_get item (lit k)) as [[u|d]|]; cbn [follow]; split; intros H; try discriminate; [injection H as ->; reflexivity|injection H as ->; reflexivity].
Qed.
Lemma optional_may item k : optional item k (may item k) eq.
Proof. destruct (may item k) as [t|] eqn:E; cbn [optional]; [exists t; split; [apply says_may, E|reflexivity]|]. intros t H. apply says_may in H. congruence. Qed.
Lemma optional_parts item k : optional item k (option_map parts (may item k)) cut.
Proof. destruct (may item k) as [t|] eqn:E; cbn [optional option_map]; [exists t; split; [apply says_may, E|apply cut_parts]|]. intros t H. apply says_may in H. congruence. Qed.
Lemma optional_unique item k (v : option text) : optional item k v eq -> v = may item k.
Proof. destruct v as [a|]; cbn [optional]; [intros (t & S & ->); symmetry; apply says_may, S|]. intros N. destruct (may item k) as [t|] eqn:E; [|reflexivity]. destruct (N t). apply says_may, E. Qed.
Lemma optional_unique_cut item k (v : option path) : optional item k v cut -> v = option_map parts (may item k).
Proof.
  destruct v as [a|]; cbn [optional].
  - intros (t & S & C). apply says_may in S. rewrite S. cbn [option_map]. f_equal. exact (cut_unique a (parts t) t C (cut_parts t)).
  - intros N. destruct (may item k) as [t|] eqn:E; [|reflexivity]. destruct (N t). apply says_may, E.
Qed.
Theorem C79_entry_lemma : forall item e, to_entry item = Ok e <-> entry_of item e.
Proof.
  intros item e. unfold to_entry. split.
  - intros H.
    destruct (need item "DATASET_NAME") as [a1|] eqn:E1; [|discriminate]. destruct (need item "DATASET_ARCHIVE_NAME") as [a2|] eqn:E2; [|discriminate].
    destruct (need item "DATASET_URL") as [a3|] eqn:E3; [|discriminate]. destruct (need item "TRAIN_FILE") as [a4|] eqn:E4; [|discriminate].
    destruct (need item "TEST_FILE") as [a5|] eqn:E5; [|discriminate]. destruct (need item "BLOG_POST_URL") as [a6|] eqn:E6; [|discriminate].
    destruct (need item "MODELS_ARCHIVE_NAME") as [a7|] eqn:E7; [|discriminate]. destruct (need item "MODELS_URL") as [a8|] eqn:E8; [|discriminate].
    cbn [bind] in H. injection H as <-. rewrite says_need in *. unfold entry_of. cbn [d_name d_archive d_url d_train d_test d_validation d_subfolder d_license d_blog d_models_archive d_models_url].
    repeat (split; [assumption|]). split; [exists a4; split; [exact E4|apply cut_parts]|]. split; [exists a5; split; [exact E5|apply cut_parts]|].
    split; [apply optional_parts|]. split; [apply optional_may|]. split; [apply optional_parts|]. repeat (split; [assumption|]). assumption.
  - destruct e as [a1 a2 a3 p4 p5 v s li a6 a7 a8]. unfold entry_of. cbn [d_name d_archive d_url d_train d_test d_validation d_subfolder d_license d_blog d_models_archive d_models_url].
    intros (E1 & E2 & E3 & (t4 & E4 & C4) & (t5 & E5 & C5) & OV & OS & OL & E6 & E7 & E8). apply says_need in E1, E2, E3, E4, E5, E6, E7, E8.
    rewrite E1, E2, E3, E4, E5, E6, E7, E8. cbn [bind].
    rewrite (cut_unique p4 _ t4 C4 (cut_parts t4)), (cut_unique p5 _ t5 C5 (cut_parts t5)), (optional_unique _ _ _ OS), (optional_unique_cut _ _ _ OV), (optional_unique_cut _ _ _ OL). reflexivity.
Qed.
