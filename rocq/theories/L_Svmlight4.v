(** Remaining facts about svmlight files: integer matrices, several files, cell-by-cell copy. *)
From Coq Require Import Ascii String List ZArith Lia Bool.
From Verif Require Import Base Lists M_Text M_Dataset M_Svmlight S_Dataset S_Svmlight
  L_Dataset L_Text L_Reshape L_Svmlight L_Svmlight2.
Import ListNotations.
Local Open Scope Z_scope.

(** Copy of [len] cells one after the other, from the first one. *)
Definition copy_cells {A} (data : list A) (src len dst : Z) : res (list A) :=
  foldM (fun d j => do v <- mem_get d (src + Z.of_nat j); mem_set d (dst + Z.of_nat j) v)
        (seq 0 (Z.to_nat len)) data.

(** Integers printed in full. *)
Definition z_tok (z : Z) : numtok := Dec (z <? 0) (Z.abs z) 0.
Definition z_of (t : numtok) : Z :=
  match t with Dec n m _ => if n then - m else m | _ => 0 end.
Definition ZF : fmt Z := mkFmt 0 (fun t => Some (z_of t)) z_of (fun v => v) show_Z.

Lemma z_of_tok z : z_of (z_tok z) = z.
Proof. unfold z_of, z_tok. destruct (z <? 0) eqn:E; [apply Z.ltb_lt in E|apply Z.ltb_ge in E]; lia. Qed.

Lemma C63_lemma {V} (F : fmt V) fs ps :
  load_svmlight_files F fs = Ok ps <->
  fs <> [] /\ Forall2 (fun f p => load_svmlight_file F f = Ok p) fs ps.
Proof.
  assert (H : forall fs ps, mapM (load_svmlight_file F) fs = Ok ps <->
                Forall2 (fun f p => load_svmlight_file F f = Ok p) fs ps).
  { clear. induction fs as [|f fs IH]; intros ps; cbn [mapM].
    - split; [intros E; injection E as <-; constructor|intros H; inversion H; reflexivity].
    - split.
      + destruct (load_svmlight_file F f) as [p|e] eqn:E; [|discriminate]. cbn [bind].
        destruct (mapM _ fs) as [qs|e] eqn:E2; [|discriminate]. cbn [bind].
        intros E3. injection E3 as <-. constructor; [exact E|]. apply IH. reflexivity.
      + intros H. inversion H as [|? p ? qs H1 H2]; subst. rewrite H1. cbn [bind].
        apply IH in H2. rewrite H2. reflexivity. }
  destruct fs as [|f fs].
  - split; [discriminate|]. intros [E _]. congruence.
  - cbn [load_svmlight_files]. rewrite (H (f :: fs) ps). split; [intros E; split; [discriminate|exact E]|intros [_ E]; exact E].
Qed.

Lemma show_Z_numeral z : numeral (show_Z z) (z_tok z).
Proof.
  assert (Hf : forall m, 0 <= m -> digits (nat_digits (S (Z.to_nat (Z.log2 m))) m) /\
    nat_digits (S (Z.to_nat (Z.log2 m))) m <> [] /\ dvalue (nat_digits (S (Z.to_nat (Z.log2 m))) m) = m).
  { intros m Hm. apply nat_digits_spec; [|lia]. split; [lia|].
    rewrite Nat2Z.inj_succ, Z2Nat.id by apply Z.log2_nonneg.
    destruct (Z.eq_dec m 0) as [->|Hn]; [reflexivity|]. apply Z.log2_spec. lia. }
  unfold show_Z, z_tok. destruct (z <? 0) eqn:E.
  - apply Z.ltb_lt in E. destruct (Hf (- z)) as (D & N & W); [lia|].
    replace (Z.abs z) with (dvalue (nat_digits (S (Z.to_nat (Z.log2 (- z)))) (- z) ++ []))
      by (rewrite app_nil_r, W; lia).
    pose proof (numeral_intro (lit "-") true (nat_digits (S (Z.to_nat (Z.log2 (- z)))) (- z)) [] [] [] 0) as H.
    cbn [app] in H. rewrite !app_nil_r in *. apply H; auto; try constructor.
  - apply Z.ltb_ge in E. destruct (Hf z) as (D & N & W); [lia|].
    replace (Z.abs z) with (dvalue (nat_digits (S (Z.to_nat (Z.log2 z))) z ++ []))
      by (rewrite app_nil_r, W; lia).
    pose proof (numeral_intro [] false (nat_digits (S (Z.to_nat (Z.log2 z))) z) [] [] [] 0) as H.
    cbn [app] in H. rewrite !app_nil_r in *. apply H; auto; try constructor.
Qed.

Lemma C14_integers_lemma nf (X : list (list Z)) y ids d junk :
  built nf X y ids d -> (2 <= length X)%nat -> (0 < nf)%nat -> Forall (fun r => length r = nf) X ->
  length junk = length ids -> Z.of_nat (length X * S nf) < 2 ^ 31 ->
  exists f, ds_dump ZF junk d = Ok f /\ ds_load ZF f = Ok d.
Proof.
  intros Hb Hn Hnf HX Hj Hsz.
  apply (C14_dataset_lemma ZF z_tok nf X y ids d junk); auto.
  - apply Forall_forall. intros v _. split; [apply show_Z_numeral|]. cbn. f_equal. apply z_of_tok.
  - apply Forall_forall. intros r _. apply Forall_forall. intros v _.
    split; [apply show_Z_numeral|]. split; [apply z_of_tok|reflexivity].
Qed.
