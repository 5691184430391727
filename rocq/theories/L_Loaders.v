(** Proofs: numbered trees, assignments to the arrays, and chains of loaded trees. *)
From Coq Require Import Ascii String List ZArith Lia Bool Permutation.
From Verif Require Import Base Lists Num M_Text M_Svmlight S_Svmlight L_Text M_Dataset M_Ensemble S_Ensemble L_Ensemble L_Ensemble2 M_Loaders S_Loaders.
Import ListNotations.
Local Open Scope Z_scope.

(** ** Trees *)
Section T.
Context {A V : Type}.
Lemma size_preorder (t : tree A V) : forall i, size (preorder i t) = size t.
Proof. induction t as [a v|a f x l IHl r IHr]; intros i; cbn; auto. Qed.
Lemma mark_preorder (t : tree A V) i : mark (preorder i t) = i.
Proof. destruct t; auto. Qed.
Lemma erase_preorder (t : tree A V) : forall i, erase (preorder i t) = erase t.
Proof. induction t as [a v|a f x l IHl r IHr]; intros i; cbn; congruence. Qed.
Lemma splits_preorder (t : tree A V) : forall i, splits (preorder i t) = splits t.
Proof. induction t as [a v|a f x l IHl r IHr]; intros i; cbn; congruence. Qed.
Lemma zrange_cons a b : a < b -> zrange a b = a :: zrange (a + 1) b.
Proof.
  intros H. unfold zrange. replace (Z.to_nat (b - a)) with (S (Z.to_nat (b - (a + 1)))) by lia.
  cbn [seq map]. f_equal; [lia|]. rewrite <- seq_shift, map_map. apply map_ext. intros; lia.
Qed.
Lemma seq_add n m : forall k, map (fun i => (n + i)%nat) (seq k m) = seq (n + k) m.
Proof. induction m as [|m IH]; intros k; cbn [seq map]; auto. f_equal. rewrite IH. f_equal. lia. Qed.
Lemma zrange_app a b c : a <= b <= c -> zrange a b ++ zrange b c = zrange a c.
Proof.
  intros H. unfold zrange. replace (Z.to_nat (c - a)) with (Z.to_nat (b - a) + Z.to_nat (c - b))%nat by lia.
  rewrite seq_app, map_app. f_equal. replace (0 + Z.to_nat (b - a))%nat with (Z.to_nat (b - a) + 0)%nat by lia.
  rewrite <- seq_add, map_map. apply map_ext. intros; lia.
Qed.
Lemma size_pos' (t : tree A V) : (1 <= size t)%nat.
Proof. induction t; cbn; lia. Qed.
Lemma marks_preorder (t : tree A V) : forall i, marks (preorder i t) = zrange i (i + Z.of_nat (size t)).
Proof.
  induction t as [a v|a f x l IHl r IHr]; intros i; cbn [preorder marks size].
  - rewrite zrange_cons by lia. f_equal. unfold zrange. replace (Z.to_nat _) with 0%nat by lia. reflexivity.
  - rewrite IHl, IHr. rewrite (zrange_cons i) by lia. f_equal.
    rewrite zrange_app by lia. f_equal; lia.
Qed.
Lemma erase_all (ts : list (tree A V)) : forall i, map erase (preorder_all i ts) = map erase ts.
Proof. induction ts as [|t ts IH]; intros i; cbn; auto. rewrite erase_preorder, IH. reflexivity. Qed.
Lemma length_all (ts : list (tree A V)) : forall i, length (preorder_all i ts) = length ts.
Proof. induction ts as [|t ts IH]; intros i; cbn; auto. Qed.
Lemma size_relabel {B} (g : A -> B) (t : tree A V) : size (relabel g t) = size t.
Proof. induction t; cbn; auto. Qed.
Lemma mark_relabel {B} (g : A -> B) (t : tree A V) : mark (relabel g t) = g (mark t).
Proof. destruct t; auto. Qed.
Lemma marks_relabel {B} (g : A -> B) (t : tree A V) : marks (relabel g t) = map g (marks t).
Proof. induction t; cbn; auto. rewrite map_app. congruence. Qed.
Lemma erase_relabel {B} (g : A -> B) (t : tree A V) : erase (relabel g t) = erase t.
Proof. induction t; cbn; congruence. Qed.
Context {W : Type}.
Lemma size_convert (h k : V -> W) (t : tree A V) : size (convert h k t) = size t.
Proof. induction t; cbn; auto. Qed.
Lemma mark_convert (h k : V -> W) (t : tree A V) : mark (convert h k t) = mark t.
Proof. destruct t; auto. Qed.
Lemma marks_convert (h k : V -> W) (t : tree A V) : marks (convert h k t) = marks t.
Proof. induction t; cbn; congruence. Qed.
Lemma splits_convert (h k : V -> W) (t : tree A V) : splits (convert h k t) = splits t.
Proof. induction t; cbn; congruence. Qed.
End T.

(** Features that fit are stored as they are. *)
Lemma i16_id f : - 2 ^ 15 <= f < 2 ^ 15 -> i16 f = f.
Proof.
  intros H. unfold i16, wrap_s. change (2 ^ (16 - 1)) with 32768. change (2 ^ 16) with 65536.
  change (2 ^ 15) with 32768 in H.
  destruct (Z.ltb_spec (f mod 65536) 32768) as [L|L]; destruct (Z.leb_spec 0 f).
  - apply Z.mod_small. lia.
  - replace f with (f + 65536 + (-1) * 65536) in L by lia. rewrite Z.mod_add in L by lia. rewrite Z.mod_small in L by lia. lia.
  - rewrite Z.mod_small in L by lia. lia.
  - replace f with (f + 65536 + (-1) * 65536) at 1 by lia. rewrite Z.mod_add by lia. rewrite Z.mod_small by lia. lia.
Qed.

(** ** Assignments *)
Lemma py_set_in {A} (l : list A) i v : 0 <= i < Z.of_nat (length l) -> py_set l i v = Ok (upd l (Z.to_nat i) v).
Proof.
  intros H. unfold py_set. destruct (Z.ltb_spec i 0); [lia|].
  destruct (Z.ltb_spec i 0); [lia|]. destruct (Z.leb_spec (Z.of_nat (length l)) i); [lia|]. reflexivity.
Qed.
Lemma zget_upd {A} (l : list A) i j v : 0 <= i < Z.of_nat (length l) ->
  zget (upd l (Z.to_nat i) v) j = if i =? j then Some v else zget l j.
Proof.
  intros H. unfold zget. destruct (Z.ltb_spec j 0).
  - destruct (Z.eqb_spec i j); auto. lia.
  - destruct (Z.eqb_spec i j).
    + subst. apply nth_error_upd_eq. lia.
    + apply nth_error_upd_neq. lia.
Qed.
Lemma upd_middle {A} (a : list A) x r v : upd (a ++ x :: r) (length a) v = a ++ v :: r.
Proof. induction a as [|y a IH]; cbn; auto. f_equal. apply IH. Qed.

Section Ens.
Context {N : num}.

(** The four arrays of nodes have [n] cells. *)
Definition sized (n : Z) (e : ensemble N) : Prop :=
  Z.of_nat (length (e_left e)) = n /\ Z.of_nat (length (e_right e)) = n /\
  Z.of_nat (length (e_value e)) = n /\ Z.of_nat (length (e_feature e)) = n.
(** Same cells outside [P]; same shape. *)
Definition same_cell (e e' : ensemble N) (j : Z) : Prop :=
  zget (e_left e') j = zget (e_left e) j /\ zget (e_right e') j = zget (e_right e) j /\
  zget (e_feature e') j = zget (e_feature e) j /\ zget (e_value e') j = zget (e_value e) j.
Definition nodes_only (e e' : ensemble N) : Prop :=
  e_ntrees e' = e_ntrees e /\ e_nnodes e' = e_nnodes e /\ e_root e' = e_root e /\ e_weight e' = e_weight e /\
  length (e_left e') = length (e_left e) /\ length (e_right e') = length (e_right e) /\
  length (e_value e') = length (e_value e) /\ length (e_feature e') = length (e_feature e).
Definition frame (a b : Z) (e e' : ensemble N) : Prop :=
  nodes_only e e' /\ forall j, ~ (a <= j < b) -> same_cell e e' j.
Definition blank_cell (e : ensemble N) (j : Z) : Prop :=
  zget (e_left e) j = Some (-1) /\ zget (e_right e) j = Some (-1) /\ zget (e_feature e) j = Some (-1).
Definition blank (a b : Z) (e : ensemble N) : Prop := forall j, a <= j < b -> blank_cell e j.

Lemma same_refl e j : same_cell e e j.
Proof. unfold same_cell; auto. Qed.
Lemma same_trans e1 e2 e3 j : same_cell e1 e2 j -> same_cell e2 e3 j -> same_cell e1 e3 j.
Proof. unfold same_cell. intuition congruence. Qed.
Lemma nodes_refl e : nodes_only e e.
Proof. unfold nodes_only; repeat split. Qed.
Lemma nodes_trans e1 e2 e3 : nodes_only e1 e2 -> nodes_only e2 e3 -> nodes_only e1 e3.
Proof. unfold nodes_only. intuition congruence. Qed.
Lemma frame_refl a b e : frame a b e e.
Proof. split; [apply nodes_refl|]. intros; apply same_refl. Qed.
Lemma frame_trans a b e1 e2 e3 : frame a b e1 e2 -> frame a b e2 e3 -> frame a b e1 e3.
Proof. intros [A1 A2] [B1 B2]. split; [eapply nodes_trans; eauto|]. intros j Hj. eapply same_trans; eauto. Qed.
Lemma frame_widen a b a' b' e1 e2 : a' <= a -> b <= b' -> frame a b e1 e2 -> frame a' b' e1 e2.
Proof. intros H1 H2 [A1 A2]. split; auto. intros j Hj. apply A2. lia. Qed.
Lemma sized_nodes n e e' : nodes_only e e' -> sized n e -> sized n e'.
Proof. unfold nodes_only, sized. intuition congruence. Qed.
Lemma blank_frame a b c d e e' : frame a b e e' -> blank c d e -> (forall j, c <= j < d -> ~ (a <= j < b)) -> blank c d e'.
Proof.
  intros [_ F] B H j Hj. destruct (F j (H j Hj)) as (A1 & A2 & A3 & A4). destruct (B j Hj) as (B1 & B2 & B3).
  unfold blank_cell. rewrite A1, A2, A3. auto.
Qed.
Lemma blank_sub a b c d e : blank a b e -> a <= c -> d <= b -> blank c d e.
Proof. intros B H1 H2 j Hj. apply B. lia. Qed.
Lemma represents_same e e' t : represents e t -> (forall j, In j (marks t) -> same_cell e e' j) -> represents e' t.
Proof.
  induction t as [i v|i f x l IHl r IHr]; intros R S; cbn in R |- *.
  - destruct (S i (or_introl eq_refl)) as (A1 & A2 & A3 & A4). rewrite A1, A2, A3, A4. exact R.
  - destruct R as (R1 & R2 & R3 & R4 & R5 & R6).
    destruct (S i (or_introl eq_refl)) as (A1 & A2 & A3 & A4). rewrite A1, A2, A3, A4.
    repeat (split; [assumption|]). split.
    + apply IHl; auto. intros j Hj. apply S. right. apply in_or_app; auto.
    + apply IHr; auto. intros j Hj. apply S. right. apply in_or_app; auto.
Qed.

Ltac setter := intros (S1 & S2 & S3 & S4) H; unfold set_left, set_right, set_value, set_feature;
  rewrite py_set_in by lia; cbn [bind]; eexists; split; [reflexivity|];
  split; [unfold nodes_only; cbn [e_ntrees e_nnodes e_root e_weight e_left e_right e_value e_feature];
          rewrite ?upd_length; repeat split|];
  cbn [e_ntrees e_nnodes e_root e_weight e_left e_right e_value e_feature];
  repeat split; try reflexivity; intros j; apply zget_upd; lia.

Lemma set_left_ok n e i v : sized n e -> 0 <= i < n -> exists e', set_left e i v = Ok e' /\ nodes_only e e' /\
  (forall j, zget (e_left e') j = if i =? j then Some v else zget (e_left e) j) /\
  e_right e' = e_right e /\ e_feature e' = e_feature e /\ e_value e' = e_value e.
Proof. setter. Qed.
Lemma set_right_ok n e i v : sized n e -> 0 <= i < n -> exists e', set_right e i v = Ok e' /\ nodes_only e e' /\
  (forall j, zget (e_right e') j = if i =? j then Some v else zget (e_right e) j) /\
  e_left e' = e_left e /\ e_feature e' = e_feature e /\ e_value e' = e_value e.
Proof. setter. Qed.
Lemma set_value_ok n e i v : sized n e -> 0 <= i < n -> exists e', set_value e i v = Ok e' /\ nodes_only e e' /\
  (forall j, zget (e_value e') j = if i =? j then Some v else zget (e_value e) j) /\
  e_left e' = e_left e /\ e_right e' = e_right e /\ e_feature e' = e_feature e.
Proof. setter. Qed.
Lemma set_feature_ok n e i v : sized n e -> 0 <= i < n -> exists e', set_feature e i v = Ok e' /\ nodes_only e e' /\
  (forall j, zget (e_feature e') j = if i =? j then Some (i16 v) else zget (e_feature e) j) /\
  e_left e' = e_left e /\ e_right e' = e_right e /\ e_value e' = e_value e.
Proof. setter. Qed.

Lemma set_frame (e e' : ensemble N) i : nodes_only e e' ->
  (forall j, j <> i -> zget (e_left e') j = zget (e_left e) j) ->
  (forall j, j <> i -> zget (e_right e') j = zget (e_right e) j) ->
  (forall j, j <> i -> zget (e_feature e') j = zget (e_feature e) j) ->
  (forall j, j <> i -> zget (e_value e') j = zget (e_value e) j) ->
  frame i (i + 1) e e'.
Proof. intros H A B C D. split; auto. intros j Hj. unfold same_cell. rewrite A, B, C, D by lia. auto. Qed.

(** ** Chains of trees *)

(** The tree number [k] has been written from node [a] on. *)
Definition tree_done (k : nat) (a : Z) (e e' : ensemble N) (t : tree Z N) (w : N) : Prop :=
  e_ntrees e' = e_ntrees e /\ e_nnodes e' = e_nnodes e /\
  e_root e' = upd (e_root e) k a /\ e_weight e' = upd (e_weight e) k w /\
  length (e_left e') = length (e_left e) /\ length (e_right e') = length (e_right e) /\
  length (e_value e') = length (e_value e) /\ length (e_feature e') = length (e_feature e) /\
  (forall j, ~ (a <= j < a + Z.of_nat (size t)) -> same_cell e e' j) /\
  represents e' t /\ mark t = a /\ Permutation (marks t) (zrange a (a + Z.of_nat (size t))).
Inductive chain : nat -> Z -> ensemble N -> list (tree Z N) -> list N -> ensemble N -> Prop :=
| chain_nil k a e : chain k a e [] [] e
| chain_cons k a e e1 e2 t w ts ws :
    tree_done k a e e1 t w -> chain (S k) (a + Z.of_nat (size t)) e1 ts ws e2 ->
    chain k a e (t :: ts) (w :: ws) e2.

Definition blank_from (a : Z) (e : ensemble N) : Prop := blank a (Z.of_nat (length (e_left e))) e.

Lemma done_blank k a e e' t w : tree_done k a e e' t w -> blank_from a e -> blank_from (a + Z.of_nat (size t)) e'.
Proof.
  intros (_ & _ & _ & _ & L & _ & _ & _ & F & _) B j Hj.
  destruct (F j ltac:(lia)) as (A1 & A2 & A3 & _). destruct (B j ltac:(lia)) as (B1 & B2 & B3).
  unfold blank_cell. rewrite A1, A2, A3; auto.
Qed.
Lemma done_sized k a e e' t w n : tree_done k a e e' t w -> sized n e -> sized n e'.
Proof. unfold tree_done, sized. intuition congruence. Qed.

Lemma chain_ok ts : forall k a e ws e' R W, chain k a e ts ws e' ->
  e_root e = R ++ repeat (-1) (length ts) -> e_weight e = W ++ repeat nzero (length ts) ->
  length R = k -> length W = k ->
  e_ntrees e' = e_ntrees e /\ e_nnodes e' = e_nnodes e /\
  e_root e' = R ++ map mark ts /\ e_weight e' = W ++ ws /\ length ws = length ts /\
  length (e_left e') = length (e_left e) /\ length (e_right e') = length (e_right e) /\
  length (e_value e') = length (e_value e) /\ length (e_feature e') = length (e_feature e) /\
  (forall j, j < a -> same_cell e e' j) /\ Forall (represents e') ts /\ consecutive a ts.
Proof.
  induction ts as [|t ts IH]; intros k a e ws e' R W C HR HW LR LW; inversion C; subst; cbn [length repeat] in *.
  - cbn [map consecutive]. rewrite ?app_nil_r in *.
    split; [reflexivity|]. split; [reflexivity|]. split; [assumption|]. split; [assumption|].
    split; [reflexivity|]. do 4 (split; [reflexivity|]). split; [intros; apply same_refl|]. split; [constructor|exact I].
  - match goal with H : tree_done _ _ _ _ _ _ |- _ => destruct H as (D1 & D2 & D3 & D4 & D5 & D6 & D7 & D8 & D9 & D10 & D11 & D12) end.
    match goal with H : chain (S _) _ _ _ _ _ |- _ => rename H into C' end.
    rewrite HR, upd_middle in D3. rewrite HW, <- LW, upd_middle in D4.
    destruct (IH _ _ _ _ _ (R ++ [mark t]) (W ++ [w]) C') as (E1 & E2 & E3 & E4 & E5 & E6 & E7 & E8 & E9 & E10 & E11 & E12).
    + rewrite <- app_assoc. cbn [app]. rewrite D11. exact D3.
    + rewrite <- app_assoc. exact D4.
    + rewrite app_length. cbn. lia.
    + rewrite app_length. cbn. lia.
    + split; [congruence|]. split; [congruence|]. split; [rewrite E3, <- app_assoc; reflexivity|].
      split; [rewrite E4, <- app_assoc; reflexivity|]. split; [cbn; lia|].
      split; [congruence|]. split; [congruence|]. split; [congruence|]. split; [congruence|].
      split; [intros j Hj; eapply same_trans; [apply D9; lia|apply E10; pose proof (size_pos t); lia]|].
      split.
      * constructor; auto. eapply represents_same; [exact D10|]. intros j Hj. apply E10.
        apply (Permutation_in _ D12) in Hj. apply in_zrange in Hj. lia.
      * cbn [consecutive]. auto.
Qed.

(** Freshly allocated arrays. *)
Lemma zget_repeat {A} (x : A) n j : 0 <= j < Z.of_nat n -> zget (repeat x n) j = Some x.
Proof.
  intros H. unfold zget. destruct (Z.ltb_spec j 0); [lia|].
  rewrite (nth_error_nth' _ x) by (rewrite repeat_length; lia). f_equal. apply nth_repeat.
Qed.
Lemma initialize_ok nt nn : exists e, initialize (N:=N) (Z.of_nat nt) (Z.of_nat nn) = Ok e /\
  e_ntrees e = Z.of_nat nt /\ e_nnodes e = Z.of_nat nn /\ e_root e = repeat (-1) nt /\ e_weight e = repeat nzero nt /\
  length (e_left e) = nn /\ sized (Z.of_nat nn) e /\ blank_from 0 e.
Proof.
  unfold initialize. destruct (Z.ltb_spec (Z.of_nat nt) 0); [lia|]. destruct (Z.ltb_spec (Z.of_nat nn) 0); [lia|]. cbn [orb].
  rewrite !Nat2Z.id. eexists. split; [reflexivity|].
  unfold sized, blank_from, blank, blank_cell. cbn [e_ntrees e_nnodes e_root e_weight e_left e_right e_value e_feature].
  rewrite !repeat_length. repeat (split; [reflexivity|]). split; [repeat split; reflexivity|].
  intros j Hj. rewrite !zget_repeat by lia. auto.
Qed.

Lemma chain_laid_out ts ws e e' : chain 0 0 e ts ws e' ->
  e_ntrees e = Z.of_nat (length ts) -> e_nnodes e = Z.of_nat (total_size ts) ->
  e_root e = repeat (-1) (length ts) -> e_weight e = repeat nzero (length ts) ->
  sized (Z.of_nat (total_size ts)) e -> laid_out e' ts ws.
Proof.
  intros C H1 H2 H3 H4 (S1 & S2 & S3 & S4).
  destruct (chain_ok ts 0 0 e ws e' [] [] C H3 H4 eq_refl eq_refl) as (E1 & E2 & E3 & E4 & E5 & E6 & E7 & E8 & E9 & E10 & E11 & E12).
  unfold laid_out, encodes. cbn [app] in *.
  split; [split; [congruence|]; split; [assumption|]; split; [assumption|]; split; assumption|].
  split; [assumption|]. split; [congruence|]. repeat split; lia.
Qed.
End Ens.

(** ** Integers and words *)
Lemma py_strip_padded s w : padded s w -> (forall c r, w = c :: r -> ~ blank_char c) -> (forall c r, w = r ++ [c] -> ~ blank_char c) ->
  py_strip s = w.
Proof.
  intros (a & b & Ha & Hb & ->) H1 H2. unfold py_strip.
  destruct w as [|c r].
  - cbn [app]. replace (skip_space (a ++ b)) with (@nil ascii); [reflexivity|].
    symmetry. rewrite <- (app_nil_r (a ++ b)). apply blanks_skip; [apply Forall_app; auto|exact I].
  - rewrite (blanks_skip a ((c :: r) ++ b)); auto.
    2:{ cbn. apply is_space_false. eapply H1; eauto. }
    rewrite rev_app_distr. rewrite blanks_skip.
    + rewrite rev_involutive. reflexivity.
    + apply Forall_rev. exact Hb.
    + destruct (rev (c :: r)) as [|d q] eqn:E.
      { apply (f_equal (@rev ascii)) in E. rewrite rev_involutive in E. discriminate. }
      cbn. apply is_space_false. apply (H2 d (rev q)). rewrite <- (rev_involutive (c :: r)), E. reflexivity.
Qed.
Lemma word_ends w : word w -> (forall c r, w = c :: r -> ~ blank_char c) /\ (forall c r, w = r ++ [c] -> ~ blank_char c).
Proof.
  intros [H1 H2]. split; intros c r ->.
  - inversion H2; auto.
  - apply Forall_app in H2. destruct H2 as [_ H2]. inversion H2; auto.
Qed.
Lemma padded_refl w : padded w w.
Proof. exists [], []. rewrite app_nil_r. repeat split; constructor. Qed.
Lemma py_strip_word s w : padded s w -> word w -> py_strip s = w.
Proof. intros P W. apply word_ends in W. apply py_strip_padded; tauto. Qed.
Lemma sign_blank sg neg : sign_text sg neg -> Forall (fun c => ~ blank_char c) sg.
Proof.
  intros H; inversion H; subst; repeat constructor; intros I; cbn in I;
    repeat (destruct I as [I|I]; [discriminate I|]); exact I.
Qed.
Lemma int_dec_word t q : int_dec t q -> word t.
Proof.
  intros (sg & neg & ds & -> & S & D & E & _). split.
  - destruct sg, ds; cbn; congruence.
  - apply Forall_app. split; [eapply sign_blank; eauto|].
    eapply Forall_impl; [|exact D]. intros c; apply digit_not_blank.
Qed.
Lemma py_int_dec s t q : padded s t -> int_dec t q -> py_int s = Ok q.
Proof.
  intros P I. unfold py_int. rewrite (py_strip_word s t P) by (eapply int_dec_word; eauto).
  destruct I as (sg & neg & ds & -> & S & D & E & ->).
  rewrite (take_sign_text sg neg ds S).
  2:{ destruct ds as [|c r]; [congruence|]. cbn. apply digit_not_sign. inversion D; auto. }
  destruct ds as [|c r]; [congruence|]. cbn [is_nil orb].
  replace (forallb is_digit (c :: r)) with true.
  - cbn [negb]. rewrite digits_val_dvalue. destruct neg; reflexivity.
  - symmetry. apply forallb_forall. intros x Hx. apply is_digit_iff. revert x Hx. apply Forall_forall. exact D.
Qed.
Lemma py_int_strip s t q : padded s t -> int_dec t q -> py_int (py_strip s) = Ok q.
Proof.
  intros P I. rewrite (py_strip_word s t P) by (eapply int_dec_word; eauto).
  eapply py_int_dec; [apply padded_refl|exact I].
Qed.
Lemma show_Z_dec n : int_dec (show_Z n) n.
Proof.
  unfold show_Z. destruct (Z.ltb_spec n 0).
  - destruct (nat_digits_spec (S (Z.to_nat (Z.log2 (- n)))) (- n)) as (D & E & V).
    { split; [lia|]. rewrite Nat2Z.inj_succ, Z2Nat.id by apply Z.log2_nonneg. apply Z.log2_spec. lia. }
    { lia. }
    exists (lit "-"), true, (nat_digits (S (Z.to_nat (Z.log2 (- n)))) (- n)).
    split; [reflexivity|]. split; [constructor|]. split; [assumption|]. split; [assumption|]. lia.
  - destruct (nat_digits_spec (S (Z.to_nat (Z.log2 n))) n) as (D & E & V).
    { split; [lia|]. rewrite Nat2Z.inj_succ, Z2Nat.id by apply Z.log2_nonneg.
      destruct (Z.eq_dec n 0); [subst; reflexivity|]. apply Z.log2_spec. lia. }
    { lia. }
    exists [], false, (nat_digits (S (Z.to_nat (Z.log2 n))) n).
    split; [reflexivity|]. split; [constructor|]. split; [assumption|]. split; [assumption|]. lia.
Qed.
