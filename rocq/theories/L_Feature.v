(** Proofs about feature importance, in any arithmetic. *)
From Coq Require Import List ZArith Bool Lia Permutation Arith.
From Verif Require Import Base Num Lists M_Dataset M_Ensemble S_Ensemble L_Ensemble L_Loaders M_Topology L_Topology M_Feature S_Feature.
Import ListNotations.
Local Open Scope Z_scope.

Lemma zget_app_mid {A} (P : list A) x T : zget (P ++ x :: T) (Z.of_nat (length P)) = Some x.
Proof. rewrite zget_nth. rewrite nth_error_app2, Nat.sub_diag by lia. reflexivity. Qed.
Lemma upd_app_mid {A} (P : list A) x T v : upd (P ++ x :: T) (length P) v = P ++ v :: T.
Proof. induction P as [|p P IH]; [reflexivity|]. cbn [app length upd]. f_equal. exact IH. Qed.
Lemma mem_set_mid {A} (P : list A) x T v i : i = Z.of_nat (length P) -> mem_set (P ++ x :: T) i v = Ok (P ++ v :: T).
Proof.
  intros ->. unfold mem_set. rewrite app_length. cbn [length].
  destruct (Z.ltb_spec (Z.of_nat (length P)) 0), (Z.leb_spec (Z.of_nat (length P + S (length T))) (Z.of_nat (length P))); try lia.
  cbn [orb]. rewrite Nat2Z.id, upd_app_mid. reflexivity.
Qed.
Lemma mem_get_mid {A} (P : list A) x T i : i = Z.of_nat (length P) -> mem_get (P ++ x :: T) i = Ok x.
Proof. intros ->. apply mem_get_zget. apply zget_app_mid. Qed.

Lemma swap_ends (P : list Z) x T z B j : j = Z.of_nat (length P) + Z.of_nat (length T) + 1 ->
  swap (P ++ x :: T ++ z :: B) (Z.of_nat (length P)) j = Ok (P ++ z :: T ++ x :: B).
Proof.
  intros ->. unfold swap. rewrite (mem_get_mid P x _ _ eq_refl). cbn [bind].
  assert (E : P ++ x :: T ++ z :: B = (P ++ x :: T) ++ z :: B) by (rewrite <- app_assoc; reflexivity).
  rewrite E, (mem_get_mid (P ++ x :: T) z B) by (rewrite app_length; cbn [length]; lia). cbn [bind].
  rewrite <- E, (mem_set_mid P x _ z _ eq_refl). cbn [bind].
  assert (E' : P ++ z :: T ++ z :: B = (P ++ z :: T) ++ z :: B) by (rewrite <- app_assoc; reflexivity).
  rewrite E', (mem_set_mid (P ++ z :: T) z B) by (rewrite app_length; cbn [length]; lia). rewrite <- app_assoc. reflexivity.
Qed.
Lemma swap_same (P : list Z) x B : swap (P ++ x :: B) (Z.of_nat (length P)) (Z.of_nat (length P)) = Ok (P ++ x :: B).
Proof.
  unfold swap. rewrite (mem_get_mid P x _ _ eq_refl). cbn [bind]. rewrite !(mem_set_mid P x _ x _ eq_refl). cbn [bind].
  rewrite (mem_set_mid P x _ x _ eq_refl). reflexivity.
Qed.

Section Generic.
Context {N : num}.

Definition accum (yv : Z -> N) (l : list Z) (a : N) : N := fold_left (fun a i => nf32 (nadd a (yv i))) l a.

Lemma part_ok (X : list N) nf f thr yt (xv yv : Z -> N) : forall n M A B ml mr fuel,
  length M = n -> (n <= fuel)%nat ->
  (forall i, In i M -> zget X (x_index nf i f) = Some (xv i) /\ zget yt i = Some (yv i)) ->
  exists L R,
    partition fuel X nf f thr yt (A ++ M ++ B) (Z.of_nat (length A)) (Z.of_nat (length A) + Z.of_nat (length M) - 1) ml mr =
      Ok (A ++ L ++ R ++ B, Z.of_nat (length A) + Z.of_nat (length L) - 1, accum yv L ml, accum yv (rev R) mr) /\
    Permutation M (L ++ R) /\
    (forall i, In i L -> nleb (xv i) thr = true) /\ (forall i, In i R -> nleb (xv i) thr = false).
Proof.
  induction n as [|n IH]; intros M A B ml mr fuel HM Hf HX.
  - destruct M; [|discriminate]. exists [], []. cbn [app length rev]. split; [|repeat split; [constructor|intros i []|intros i []]].
    destruct fuel; cbn [partition]; destruct (Z.ltb_spec (Z.of_nat (length A) + Z.of_nat 0 - 1) (Z.of_nat (length A))); try lia; reflexivity.
  - destruct M as [|x M]; [discriminate|]. injection HM as HM. destruct fuel as [|fuel]; [lia|].
    cbn [partition]. destruct (Z.ltb_spec (Z.of_nat (length A) + Z.of_nat (length (x :: M)) - 1) (Z.of_nat (length A))) as [H|_]; [cbn [length] in H; lia|].
    cbn [app]. rewrite (mem_get_mid A x _ _ eq_refl). cbn [bind].
    destruct (HX x (or_introl eq_refl)) as [Hx Hy]. rewrite (mem_get_zget _ _ _ Hx). cbn [bind]. rewrite (mem_get_zget _ _ _ Hy). cbn [bind].
    destruct (nleb (xv x) thr) eqn:Ex.
    + destruct (IH M (A ++ [x]) B (nf32 (nadd ml (yv x))) mr fuel HM ltac:(lia) (fun i Hi => HX i (or_intror Hi))) as [L [R [E [P [HL HR]]]]].
      exists (x :: L), R. split; [|split; [|split]].
      * rewrite <- app_assoc in E. cbn [app] in E. rewrite app_length in E. cbn [length] in *.
        replace (Z.of_nat (length A) + 1) with (Z.of_nat (length A + 1)) by lia.
        replace (Z.of_nat (length A) + Z.of_nat (S (length M)) - 1) with (Z.of_nat (length A + 1) + Z.of_nat (length M) - 1) by lia.
        rewrite E. rewrite <- !app_assoc. cbn [app].
        replace (Z.of_nat (length A) + Z.of_nat (S (length L)) - 1) with (Z.of_nat (length A + 1) + Z.of_nat (length L) - 1) by lia. reflexivity.
      * cbn [app]. constructor. exact P.
      * intros i [<-|Hi]; [exact Ex|apply HL; exact Hi].
      * exact HR.
    + destruct M as [|w M0] eqn:EM.
      * cbn [length]. replace (Z.of_nat (length A) + Z.of_nat 1 - 1) with (Z.of_nat (length A)) by lia.
        cbn [app]. rewrite swap_same. cbn [bind]. exists [], [x]. cbn [app length rev accum fold_left].
        split; [|split; [apply Permutation_refl|split; [intros i []|intros i [<-|[]]; exact Ex]]].
        destruct fuel; cbn [partition]; destruct (Z.ltb_spec (Z.of_nat (length A) - 1) (Z.of_nat (length A))); try lia;
          replace (Z.of_nat (length A) + Z.of_nat 0 - 1) with (Z.of_nat (length A) - 1) by lia; reflexivity.
      * destruct (exists_last (l := w :: M0) ltac:(discriminate)) as [T [z ET]]. rewrite ET in *.
        rewrite <- app_assoc. cbn [app]. rewrite (swap_ends A x T z B) by (cbn [length]; rewrite app_length; cbn [length]; lia). cbn [bind].
        assert (HT : length (z :: T) = n) by (rewrite app_length in HM; cbn [length] in *; lia).
        destruct (IH (z :: T) A (x :: B) ml (nf32 (nadd mr (yv x))) fuel HT ltac:(lia)) as [L [R [E [P [HL HR]]]]].
        { intros i Hi. apply HX. right. apply in_or_app. destruct Hi as [<-|Hi]; [right; left; reflexivity|left; exact Hi]. }
        exists L, (R ++ [x]). split; [|split; [|split]].
        { cbn [app length] in E |- *. rewrite app_length. cbn [length].
          replace (Z.of_nat (length A) + Z.of_nat (S (length T + 1)) - 1 - 1) with (Z.of_nat (length A) + Z.of_nat (S (length T)) - 1) by lia.
          rewrite E, rev_app_distr, <- !app_assoc. reflexivity. }
        { apply Permutation_trans with (x :: z :: T).
          - constructor. apply Permutation_sym. apply Permutation_cons_append.
          - rewrite app_assoc. apply Permutation_trans with (x :: L ++ R); [constructor; exact P|apply Permutation_cons_append]. }
        { exact HL. }
        { intros i Hi. apply in_app_or in Hi. destruct Hi as [Hi|[<-|[]]]; [apply HR; exact Hi|exact Ex]. }
Qed.

Definition term (yv pv nv : Z -> N) (i : Z) : N := nf32 (nsub (sq_err (yv i) (pv i)) (sq_err (yv i) (nv i))).

Lemma gain_ok (yt : list N) (yv pv nv : Z -> N) end_ ml mr last : forall S P B yp acc fuel,
  last = Z.of_nat (length P) + Z.of_nat (length S) - 1 -> (length S < fuel)%nat -> 0 <= last < 2 ^ 32 - 1 -> NoDup S ->
  (forall k i, nth_error S k = Some i -> (if Z.of_nat (length P + k) <=? u32 end_ then ml else mr) = nv i) ->
  (forall i, In i S -> zget yt i = Some (yv i) /\ zget yp i = Some (pv i)) ->
  exists yp', gain_loop fuel (P ++ S ++ B) yt last end_ ml mr (Z.of_nat (length P)) yp acc = Ok (yp', acc ++ map (term yv pv nv) S) /\
    length yp' = length yp /\ (forall j, In j S -> zget yp' j = Some (nv j)) /\ (forall j, ~ In j S -> zget yp' j = zget yp j).
Proof.
  induction S as [|x S IH]; intros P B yp acc fuel Hlast Hf Hb ND Hnv HY.
  - exists yp. cbn [length map] in *. rewrite app_nil_r. split; [|split; [reflexivity|split; [intros j []|reflexivity]]].
    destruct fuel; cbn [gain_loop]; destruct (Z.ltb_spec last (Z.of_nat (length P))); try lia; reflexivity.
  - destruct fuel as [|fuel]; [lia|]. cbn [gain_loop]. cbn [length] in *.
    destruct (Z.ltb_spec last (Z.of_nat (length P))); [lia|].
    cbn [app]. rewrite (mem_get_mid P x _ _ eq_refl). cbn [bind].
    destruct (HY x (or_introl eq_refl)) as [Hy Hp]. rewrite (mem_get_zget _ _ _ Hy). cbn [bind]. rewrite (mem_get_zget _ _ _ Hp). cbn [bind].
    pose proof (Hnv 0%nat x eq_refl) as Hn. rewrite Nat.add_0_r in Hn. rewrite Hn.
    destruct (mem_set_zget yp x (nv x) (zget_range _ _ _ Hp)) as [y1 [E1 [L1 G1]]]. rewrite E1. cbn [bind].
    inversion ND as [|? ? Hni ND']; subst x0 l.
    destruct (IH (P ++ [x]) B y1 (acc ++ [term yv pv nv x]) fuel) as [y2 [E2 [L2 [G2 F2]]]].
    + rewrite app_length. cbn [length]. lia.
    + lia.
    + exact Hb.
    + exact ND'.
    + intros k i Hk. rewrite app_length. cbn [length]. replace (length P + 1 + k)%nat with (length P + Datatypes.S k)%nat by lia. apply Hnv. exact Hk.
    + intros i Hi. destruct (HY i (or_intror Hi)) as [A C]. split; [exact A|]. rewrite G1. destruct (Z.eqb_spec x i) as [->|]; [contradiction|exact C].
    + exists y2. rewrite <- app_assoc in E2. cbn [app] in E2. rewrite app_length in E2. cbn [length] in E2.
      replace (u32 (Z.of_nat (length P) + 1)) with (Z.of_nat (length P + 1)).
      2:{ unfold u32, wrap_u. rewrite Z.mod_small; lia. }
      split; [|split; [congruence|split]].
      * change (nf32 (nsub (sq_err (yv x) (pv x)) (sq_err (yv x) (nv x)))) with (term yv pv nv x).
        rewrite E2, <- app_assoc. reflexivity.
      * intros j [<-|Hj]; [|apply G2; exact Hj]. rewrite F2 by exact Hni. rewrite G1, Z.eqb_refl. reflexivity.
      * intros j Hj. rewrite F2 by (intro C; apply Hj; right; exact C). rewrite G1.
        destruct (Z.eqb_spec x j) as [->|]; [exfalso; apply Hj; left; reflexivity|reflexivity].
Qed.
End Generic.
