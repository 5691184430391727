(** reshape_data widens the matrix in place (C12). *)
From Coq Require Import List ZArith Lia Bool.
From Verif Require Import Base Lists M_Text M_Svmlight.
Import ListNotations.
Local Open Scope Z_scope.

Section Reshape.
Context {V : Type} (F : fmt V).

Lemma zero_cells_ok (A B C : list V) :
  zero_cells F (A ++ B ++ C) (Z.of_nat (length A)) (length B) = Ok (A ++ repeat (vzero F) (length B) ++ C).
Proof.
  unfold zero_cells. revert A. induction B as [|b B IH]; intros A; [reflexivity|].
  assert (Hgen : forall k s d, foldM (fun d j => mem_set d (Z.of_nat (length A) + Z.of_nat j) (vzero F)) (seq (S s) k) d
     = foldM (fun d j => mem_set d (Z.of_nat (length (A ++ [vzero F])) + Z.of_nat j) (vzero F)) (seq s k) d).
  { induction k as [|k IHk]; intros s d; [reflexivity|]. cbn [seq foldM].
    rewrite app_length. cbn [length].
    replace (Z.of_nat (length A) + Z.of_nat (S s)) with (Z.of_nat (length A + 1) + Z.of_nat s) by lia.
    destruct (mem_set d _ _) as [d'|e]; [|reflexivity]. cbn [bind].
    rewrite IHk. rewrite app_length. reflexivity. }
  cbn [length seq foldM]. unfold mem_set at 1.
  replace (Z.of_nat (length A) + Z.of_nat 0) with (Z.of_nat (length A)) by lia.
  rewrite !app_length. cbn [length].
  replace (Z.of_nat (length A) <? 0) with false by (symmetry; apply Z.ltb_ge; lia).
  replace (Z.of_nat (length A + (S (length B) + length C)) <=? Z.of_nat (length A)) with false
    by (symmetry; apply Z.leb_gt; lia).
  cbn [orb bind]. rewrite Nat2Z.id.
  assert (Hupd : upd (A ++ (b :: B) ++ C) (length A) (vzero F) = (A ++ [vzero F]) ++ B ++ C).
  { rewrite <- app_assoc. clear. induction A as [|a A IHA]; [reflexivity|].
    change (a :: upd (A ++ (b :: B) ++ C) (length A) (vzero F) = a :: A ++ [vzero F] ++ B ++ C). rewrite IHA. reflexivity. }
  rewrite Hupd. rewrite Hgen. rewrite IH. cbn [repeat]. rewrite <- app_assoc. reflexivity.
Qed.

Lemma copy_block_ok (data : list V) (src len dst : nat) :
  (src + len <= length data)%nat -> (dst + len <= length data)%nat ->
  copy_block data (Z.of_nat src) (Z.of_nat len) (Z.of_nat dst)
  = Ok (firstn dst data ++ firstn len (skipn src data) ++ skipn (dst + len) data).
Proof.
  intros H1 H2. unfold copy_block.
  replace (Z.of_nat src <? 0) with false by (symmetry; apply Z.ltb_ge; lia).
  replace (Z.of_nat dst <? 0) with false by (symmetry; apply Z.ltb_ge; lia).
  replace (Z.of_nat (length data) <? Z.of_nat src + Z.of_nat len) with false by (symmetry; apply Z.ltb_ge; lia).
  replace (Z.of_nat (length data) <? Z.of_nat dst + Z.of_nat len) with false by (symmetry; apply Z.ltb_ge; lia).
  replace (Z.of_nat len <? 0) with false by (symmetry; apply Z.ltb_ge; lia).
  cbn [orb]. rewrite !Nat2Z.id. replace (Z.to_nat (Z.of_nat dst + Z.of_nat len)) with (dst + len)%nat by lia.
  reflexivity.
Qed.

Lemma firstn_app_exact (A B : list V) : firstn (length A) (A ++ B) = A.
Proof. rewrite firstn_app, Nat.sub_diag, firstn_all, firstn_O, app_nil_r. reflexivity. Qed.
Lemma skipn_app_exact (A B : list V) : skipn (length A) (A ++ B) = B.
Proof. rewrite skipn_app, Nat.sub_diag, skipn_all, skipn_O. reflexivity. Qed.
Lemma skipn_app_plus (A B : list V) k : skipn (length A + k) (A ++ B) = skipn k B.
Proof.
  rewrite skipn_app. rewrite skipn_all2 by lia. cbn [app]. f_equal. lia.
Qed.
Lemma firstn_app_plus (A B : list V) k : firstn (length A + k) (A ++ B) = A ++ firstn k B.
Proof.
  rewrite firstn_app. rewrite firstn_all2 by lia. f_equal. f_equal. lia.
Qed.

(** Moving a block to the right by [m] within the gap that follows it. *)
Lemma copy_block_right (P B J S : list V) (m : nat) : (m <= length J)%nat ->
  exists J', length J' = m /\
  copy_block (P ++ B ++ J ++ S) (Z.of_nat (length P)) (Z.of_nat (length B)) (Z.of_nat (length P + m))
  = Ok (P ++ J' ++ B ++ skipn m J ++ S).
Proof.
  intros Hm. exists (firstn m (B ++ J ++ S)).
  split; [rewrite firstn_length, !app_length; lia|].
  rewrite copy_block_ok by (rewrite !app_length; lia).
  rewrite firstn_app_plus, skipn_app_exact, firstn_app_exact.
  rewrite <- Nat.add_assoc, skipn_app_plus.
  replace (m + length B)%nat with (length B + m)%nat by lia. rewrite skipn_app_plus.
  rewrite (skipn_app m J S). replace (m - length J)%nat with O by lia.
  rewrite skipn_O, <- !app_assoc. reflexivity.
Qed.

Definition pad (k : nat) (r : list V) : list V := r ++ repeat (vzero F) k.

Lemma concat_length_const (M : list (list V)) w :
  Forall (fun r => length r = w) M -> length (concat M) = (length M * w)%nat.
Proof.
  intros H. induction H as [|r M Hr _ IH]; [reflexivity|]. cbn [concat length]. rewrite app_length. lia.
Qed.

Lemma step_first (rows : list (list V)) (last : list V) (old per : nat) (Z0 : list V) :
  Forall (fun r => length r = old) rows -> length last = (old + per)%nat ->
  length Z0 = (length rows * per)%nat ->
  exists J, length J = (length rows * per)%nat /\
  reshape_step F (Z.of_nat old) (Z.of_nat (old + per)) (Z.of_nat per)
    (concat rows ++ last ++ Z0, Z.of_nat (length rows * old), Z.of_nat (length rows * per)) 0
  = Ok (concat rows ++ J ++ last, Z.of_nat (length rows * old) - Z.of_nat old,
        Z.of_nat (length rows * per) - Z.of_nat per).
Proof.
  intros Hr Hl Hz. unfold reshape_step. cbn [Nat.eqb].
  destruct (0 <? Z.of_nat (length rows * per)) eqn:E.
  - destruct (copy_block_right (concat rows) last Z0 [] (length rows * per)) as (J & HJ & HE); [lia|].
    rewrite (concat_length_const _ _ Hr) in HE. rewrite app_nil_r, Hl in HE.
    rewrite (Nat2Z.inj_add (length rows * old)) in HE.
    rewrite HE. cbn [bind]. exists J. split; [exact HJ|].
    rewrite skipn_all2 by lia. rewrite app_nil_r. reflexivity.
  - apply Z.ltb_ge in E. exists []. cbn [bind]. split; [cbn [length]; lia|].
    destruct Z0; [|cbn [length] in Hz; lia]. rewrite app_nil_r. reflexivity.
Qed.

Lemma step_row (P : list V) (row J S : list V) (old per i rem : nat) nf :
  i <> 0%nat -> length P = (rem * old)%nat -> length row = old -> length J = (Datatypes.S rem * per)%nat ->
  exists J', length J' = (rem * per)%nat /\
  reshape_step F (Z.of_nat old) nf (Z.of_nat per)
    (P ++ row ++ J ++ S, Z.of_nat (rem * old), Z.of_nat (rem * per)) i
  = Ok (P ++ J' ++ pad per row ++ S, Z.of_nat (rem * old) - Z.of_nat old,
        Z.of_nat (rem * per) - Z.of_nat per).
Proof.
  intros Hi HP Hrow HJ. unfold reshape_step.
  replace (Nat.eqb i 0) with false by (symmetry; apply Nat.eqb_neq; exact Hi).
  assert (Hcopy : exists J', length J' = (rem * per)%nat /\
    (if 0 <? Z.of_nat (rem * per)
     then copy_block (P ++ row ++ J ++ S) (Z.of_nat (rem * old)) (Z.of_nat old)
            (Z.of_nat (rem * old) + Z.of_nat (rem * per))
     else Ok (P ++ row ++ J ++ S)) = Ok (P ++ J' ++ row ++ skipn (rem * per) J ++ S)).
  { destruct (0 <? Z.of_nat (rem * per)) eqn:E.
    - destruct (copy_block_right P row J S (rem * per)) as (J' & HJ' & HE); [nia|].
      exists J'. split; [exact HJ'|]. rewrite HP, Hrow, Nat2Z.inj_add in HE. exact HE.
    - apply Z.ltb_ge in E. exists []. assert (E0 : (rem * per)%nat = 0%nat) by lia.
      rewrite E0. split; [reflexivity|]. reflexivity. }
  destruct Hcopy as (J' & HJ' & HE). rewrite HE. cbn [bind].
  assert (Hk : length (skipn (rem * per) J) = per) by (rewrite skipn_length; nia).
  pose proof (zero_cells_ok (P ++ J' ++ row) (skipn (rem * per) J) S) as HZ.
  rewrite Hk in HZ. rewrite !app_length, HP, HJ', Hrow in HZ.
  rewrite Nat2Z.id.
  replace (Z.of_nat (rem * old) + Z.of_nat (rem * per) + Z.of_nat old)
    with (Z.of_nat (rem * old + (rem * per + old))) by lia.
  rewrite <- !app_assoc in HZ. rewrite HZ. cbn [bind].
  exists J'. split; [exact HJ'|]. unfold pad. rewrite <- !app_assoc. reflexivity.
Qed.

(** The loop from the last row to the first. *)
Lemma loop_rows (done : list V) (old per : nat) nf : forall (rows : list (list V)) (J : list V) (i : nat),
  i <> 0%nat -> Forall (fun r => length r = old) rows -> length J = (length rows * per)%nat ->
  exists it mv,
  foldM (reshape_step F (Z.of_nat old) nf (Z.of_nat per)) (seq i (length rows))
    (concat rows ++ J ++ done, Z.of_nat (length rows * old) - Z.of_nat old,
     Z.of_nat (length rows * per) - Z.of_nat per)
  = Ok (concat (map (pad per) rows) ++ done, it, mv).
Proof.
  intros rows. revert done.
  pattern rows. apply rev_ind; clear rows.
  - intros done J i _ _ HJ. destruct J; [|discriminate]. cbn. do 2 eexists. reflexivity.
  - intros row rows IH done J i Hi Hall HJ.
    apply Forall_app in Hall as [Hrows Hrow]. inversion Hrow as [|? ? Hlen _]; subst.
    rewrite app_length in *. cbn [length] in *.
    replace (length rows + 1)%nat with (S (length rows)) in * by lia.
    cbn [seq foldM]. rewrite concat_app. cbn [concat]. rewrite app_nil_r, <- app_assoc.
    replace (Z.of_nat (S (length rows) * length row) - Z.of_nat (length row))
      with (Z.of_nat (length rows * length row)) by lia.
    replace (Z.of_nat (S (length rows) * per) - Z.of_nat per) with (Z.of_nat (length rows * per)) by lia.
    destruct (step_row (concat rows) row J done (length row) per i (length rows) nf) as (J' & HJ' & HE); auto.
    { apply concat_length_const; auto. }
    rewrite HE. cbn [bind].
    destruct (IH (pad per row ++ done) J' (S i)) as (it & mv & HE'); auto.
    exists it, mv. rewrite HE'. rewrite map_app, concat_app. cbn [map concat].
    rewrite app_nil_r, <- app_assoc. reflexivity.
Qed.

(** Narrowing to int is harmless below 2^31. *)
Lemma i32_small n : 0 <= n < 2 ^ 31 -> i32 n = n.
Proof.
  intros H. unfold i32, wrap_s. rewrite Z.mod_small by lia.
  destruct (n <? 2 ^ (32 - 1)) eqn:E; [reflexivity|]. apply Z.ltb_ge in E.
  change (2 ^ (32 - 1)) with (2 ^ 31) in E. lia.
Qed.

Theorem C12_lemma (rows : list (list V)) (last : list V) (old new : nat) :
  (0 < old)%nat -> (old < new)%nat -> rows <> [] ->
  Forall (fun r => length r = old) rows -> length last = new ->
  Z.of_nat (length rows * new) < 2 ^ 31 ->
  reshape_data F (concat rows ++ last) (Z.of_nat old) (Z.of_nat new)
  = Ok (concat (map (fun r => r ++ repeat (vzero F) (new - old)) rows) ++ last).
Proof.
  intros Ho Hn Hne Hr Hl Hb. unfold reshape_data.
  replace (Z.of_nat old =? 0) with false by (symmetry; apply Z.eqb_neq; lia).
  rewrite app_length, (concat_length_const _ _ Hr), Hl.
  assert (HR : (1 <= length rows)%nat) by (destruct rows; [congruence|cbn [length]; lia]).
  assert (E1 : i32 (u64 (Z.of_nat (length rows * old + new) - Z.of_nat new) / Z.of_nat old) = Z.of_nat (length rows)).
  { replace (Z.of_nat (length rows * old + new) - Z.of_nat new) with (Z.of_nat (length rows) * Z.of_nat old) by lia.
    unfold u64, wrap_u. rewrite Z.mod_small by nia. rewrite Z.div_mul by lia. apply i32_small. nia. }
  rewrite E1.
  set (per := (new - old)%nat).
  assert (E2 : i32 (Z.of_nat (length rows) * (Z.of_nat new - Z.of_nat old)) = Z.of_nat (length rows * per)).
  { replace (Z.of_nat (length rows) * (Z.of_nat new - Z.of_nat old)) with (Z.of_nat (length rows * per))
      by (unfold per; nia). apply i32_small. unfold per; nia. }
  rewrite E2.
  replace (Z.of_nat (length rows) =? 0) with false by (symmetry; apply Z.eqb_neq; lia).
  assert (E3 : Z.quot (Z.of_nat (length rows * per)) (Z.of_nat (length rows)) = Z.of_nat per).
  { rewrite Nat2Z.inj_mul, Z.mul_comm. apply Z.quot_mul. lia. }
  rewrite E3. rewrite Nat2Z.id.
  rewrite !app_length, repeat_length, (concat_length_const _ _ Hr), Hl.
  replace (Z.of_nat (length rows * old + new + length rows * per) - Z.of_nat new - Z.of_nat (length rows * per))
    with (Z.of_nat (length rows * old)) by lia.
  replace (Z.to_nat (Z.of_nat (length rows) + 1)) with (S (length rows)) by lia.
  cbn [seq foldM]. rewrite <- app_assoc.
  replace (Z.of_nat new) with (Z.of_nat (old + per)) by (f_equal; unfold per; lia).
  destruct (step_first rows last old per (repeat (vzero F) (length rows * per))) as (J & HJ & HE); auto.
  { unfold per; lia. }
  { apply repeat_length. }
  rewrite HE. cbn [bind].
  destruct (loop_rows last old per (Z.of_nat (old + per)) rows J 1) as (it & mv & HE'); auto.
  rewrite HE'. reflexivity.
Qed.
End Reshape.
