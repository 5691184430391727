(** Proofs about PrecisionMax. *)
From Coq Require Import List ZArith Reals Lia Lra Bool Permutation Sorted.
From Verif Require Import Base Lists Num M_Dataset M_Metrics S_Metrics L_Metrics L_MetricsR L_MetricsR2.
Import ListNotations.
Local Open Scope R_scope.

Section M.
Variable argsort : list RE -> list nat.
Hypothesis Hs : sorting argsort.
Implicit Types (y s : list RE).

Lemma lab_in y s i : length y = length s -> (i < length s)%nat -> In (lab argsort y s i) y.
Proof.
  intros HL Hi. unfold lab. apply (Permutation_in _ (ranked_perm argsort y s Hs HL)). apply nth_In. rewrite ranked_length by auto. exact Hi.
Qed.
Lemma precision_max_lemma cutoff y s m : length y = length s -> In m y -> (forall v, In v y -> v <= m) ->
  let K := retrieved cutoff (length s) in
  let best := num_of (fun i => if Req_EM_T (lab argsort y s i) m then true else false) K in
  (K = 0%nat -> eval_per_query argsort (PrecisionMax cutoff) y s = Err ZeroDivisionError) /\
  ((0 < K)%nat -> eval_per_query argsort (PrecisionMax cutoff) y s = Ok (INR best / INR K) /\ 0 <= INR best / INR K <= 1 /\
     (K = length s -> 0 < INR best / INR K)).
Proof.
  intros HL Hm Hall K best. rewrite eval_top by auto. cbn [cutoff_of top_value]. rewrite (nmax_R y m Hm) by (rewrite Forall_forall; exact Hall). cbn [bind]. rewrite firstn_retrieved_length by auto. fold K. split.
  - intros ->. reflexivity.
  - intros HK. destruct (Nat.eqb_spec K 0); [lia|].
    assert (Kb : (K <= length s)%nat) by apply retrieved_bound.
    assert (E : num_of (fun i => Rleb m (lab argsort y s i)) K = best).
    { apply num_of_ext. intros i Hi. pose proof (lab_in y s i HL ltac:(lia)) as In1. specialize (Hall _ In1). destruct (Req_EM_T (lab argsort y s i) m) as [Q|Q].
      - apply Rleb_true. rewrite Q. apply Rle_refl.
      - apply Rleb_false. change (lab argsort y s i < m)%R. lra. }
    split; [|split; [apply ratio_bounds; [apply num_of_le|exact HK]|]].
    + rewrite (count_prefix _ _ K 0) by apply K_le, Hs. rewrite !nofnat_R. unfold lab in E. rewrite <- E. reflexivity.
    + intros EK. assert (P : (0 < best)%nat).
      { destruct (Nat.eq_dec best 0) as [Z|Z]; [exfalso|lia]. unfold best in Z. rewrite num_of_zero_iff in Z.
        assert (I2 : In m (ranked argsort y s)) by (apply (Permutation_in _ (Permutation_sym (ranked_perm argsort y s Hs HL))), Hm).
        apply (In_nth _ _ 0) in I2 as (i & Hi & Ei). change (i < length (ranked argsort y s))%nat in Hi. rewrite ranked_length in Hi by auto. specialize (Z i ltac:(lia)). change (lab argsort y s i = m) in Ei. rewrite Ei in Z.
        destruct (Req_EM_T m m); [discriminate Z|congruence]. }
      apply Rdiv_lt_0_compat; apply INR_pos; assumption.
Qed.
Lemma precision_max_empty cutoff : eval_per_query argsort (PrecisionMax cutoff) [] [] = Err ValueError.
Proof. rewrite eval_top by auto. reflexivity. Qed.
(** The scale of the labels is irrelevant. *)
Lemma precision_max_scale cutoff y s (g : R -> R) : length y = length s -> y <> [] -> (forall a b, In a y -> In b y -> a < b -> g a < g b) ->
  eval_per_query argsort (PrecisionMax cutoff) (map g y) s = eval_per_query argsort (PrecisionMax cutoff) y s.
Proof.
  intros HL Hne Hg. assert (HL' : length (map g y) = length s) by (rewrite map_length; exact HL).
  destruct (nmax y) as [m|] eqn:E; [|destruct y; [congruence|discriminate]]. destruct (nmax_spec y m (RN_total_order _) E) as [I M].
  assert (Hall : forall v, In v y -> v <= m) by (intros v Hv; apply Rleb_true, M, Hv).
  assert (Hallg : forall v, In v (map g y) -> v <= g m).
  { intros v Hv. apply in_map_iff in Hv as (x & <- & Hx). destruct (Req_EM_T x m) as [->|Q]; [lra|]. specialize (Hall x Hx). left. apply Hg; auto. change (x < m). lra. }
  destruct (precision_max_lemma cutoff y s m HL I Hall) as [A1 A2]. destruct (precision_max_lemma cutoff (map g y) s (g m) HL' (in_map g _ _ I) Hallg) as [B1 B2]. cbv zeta in *.
  destruct (Nat.eq_dec (retrieved cutoff (length s)) 0) as [Z|Z]; [rewrite A1, B1 by exact Z; reflexivity|].
  destruct (A2 ltac:(lia)) as [-> _]. destruct (B2 ltac:(lia)) as [-> _]. do 3 f_equal. apply num_of_ext. intros i Hi. pose proof (retrieved_bound cutoff (length s)).
  assert (L : lab argsort (map g y) s i = g (lab argsort y s i)).
  { unfold lab, ranked. pose proof (Hs s) as [Hp _]. assert (Hl : (i < length (rev (argsort s)))%nat).
    { rewrite rev_length. rewrite (Permutation_length Hp), seq_length. lia. }
    rewrite !(nth_indep _ 0 (nth 0 (A:=R) y 0)) by (rewrite map_length; exact Hl).
    rewrite (nth_indep (map _ _) _ ((fun j => nth j (map g y) 0) 0%nat)) by (rewrite map_length; exact Hl). rewrite (map_nth (fun j => nth j (map g y) 0)).
    rewrite (nth_indep (map (fun j => nth j y 0) _) _ ((fun j => nth j y 0) 0%nat)) by (rewrite map_length; exact Hl). rewrite (map_nth (fun j => nth j y 0)).
    set (j := nth i (rev (argsort s)) 0%nat). assert (Hj : (j < length y)%nat).
    { assert (J : In j (rev (argsort s))) by (apply nth_In; exact Hl). apply in_rev in J. apply (Permutation_in _ Hp) in J. apply in_seq in J. lia. }
    rewrite (nth_indep (map g y) 0 (g 0)) by (rewrite map_length; exact Hj). apply map_nth. }
  rewrite L. pose proof (lab_in y s i HL ltac:(lia)) as J. destruct (Req_EM_T (lab argsort y s i) m) as [->|Q]; [destruct (Req_EM_T (g m) (g m)); congruence|].
  destruct (Req_EM_T (g (lab argsort y s i)) (g m)) as [Q'|]; [|reflexivity]. exfalso. specialize (Hall _ J). assert (g (lab argsort y s i) < g m); [apply Hg; auto; change (lab argsort y s i < m)|]; lra.
Qed.
End M.
