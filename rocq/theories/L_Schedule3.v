(** Proofs: the coordinates of the topological matrix and the loops of the feature importance, in any schedule. *)
From Coq Require Import List ZArith Bool Lia Permutation Arith.
From Verif Require Import Base Num Lists M_Dataset M_Ensemble L_Ensemble M_Topology L_Topology2 L_Topology3 M_Feature L_Feature
  L_CatBoost M_Schedule S_Schedule L_Schedule L_Schedule2.
Import ListNotations.
Local Open Scope Z_scope.

Lemma fcell_eqb_ok a b : fcell_eqb a b = true <-> a = b.
Proof. destruct a, b; cbn [fcell_eqb]; try (split; discriminate); rewrite Z.eqb_eq; split; congruence. Qed.

Lemma loop_nth {X} (f : Z -> X) a b i p : nth_error (map f (zrange a b)) i = Some p -> a + Z.of_nat i < b /\ p = f (a + Z.of_nat i).
Proof.
  intros H. assert (Hi : (i < length (zrange a b))%nat) by (rewrite <- (map_length f); apply nth_error_Some; congruence).
  rewrite zrange_length in Hi. rewrite nth_error_map', zrange_nth in H by exact Hi. injection H as <-. split; [lia|reflexivity].
Qed.
Lemma loop_nth_ok {X} (f : Z -> X) a b i : a + Z.of_nat i < b -> nth_error (map f (zrange a b)) i = Some (f (a + Z.of_nat i)).
Proof. intros H. rewrite nth_error_map', zrange_nth by lia. reflexivity. Qed.

(** Lists given by their cells. *)
Lemma get_cells {V} (f : Z -> V) n i : 0 <= i < n -> mem_get (map f (zrange 0 n)) i = Ok (f i).
Proof.
  intros H. apply mem_get_zget. replace i with (Z.of_nat (Z.to_nat i)) at 1 by lia.
  rewrite zget_nth, nth_error_map', zrange_nth by lia. cbn [option_map]. do 2 f_equal. lia.
Qed.
Lemma cells_zget {V} (f : Z -> V) n i : 0 <= i < n -> zget (map f (zrange 0 n)) i = Some (f i).
Proof. intros H. pose proof (get_cells f n i H) as E. unfold mem_get in E. destruct (zget _ i); [|discriminate]. injection E as ->. reflexivity. Qed.
Lemma cells_length {V} (f : Z -> V) n : length (map f (zrange 0 n)) = Z.to_nat n.
Proof. rewrite map_length, zrange_length. f_equal. lia. Qed.
Lemma oks_eq {X} (a b : list X) : map (@Ok X) a = map (@Ok X) b -> a = b.
Proof. revert b. induction a as [|x a IH]; intros [|y b] H; try discriminate; [reflexivity|]. injection H as -> H. f_equal. apply IH, H. Qed.
Lemma mapM_ok {X Y} (f : X -> res Y) (g : X -> Y) l : (forall x, In x l -> f x = Ok (g x)) -> mapM f l = Ok (map g l).
Proof.
  induction l as [|x l IH]; intros H; [reflexivity|]. cbn [mapM map]. rewrite (H x (or_introl eq_refl)). cbn [bind].
  rewrite IH by (intros y Hy; apply H; right; exact Hy). reflexivity.
Qed.

(** ** Coordinates *)
Definition coordinate_loop (data : list Z) := map (coordinate_prog data) (zrange 0 (Z.of_nat (length data))).
Definition own_coord (j : nat) (c : tcell) : Prop := match c with RowC i | ColC i => i = Z.of_nat j | _ => False end.
Lemma coordinate_any data m0 c m rs : steps tcell_eqb (m0, coordinate_loop data) c -> finished c m rs ->
  map (fun i => (m (RowC i), m (ColC i))) (zrange 0 (Z.of_nat (length data))) = map (fun x => fst (coordinates (x, 0))) data /\
  forall i, m (NodeC i) = m0 (NodeC i) /\ m (HeightC i) = m0 (HeightC i).
Proof.
  intros Hs Hf. set (n := Z.of_nat (length data)) in *.
  assert (D : disjoint_iterations own_coord (coordinate_loop data)).
  { split; [intros i j [k|k|k|k]; cbn [own_coord]; try tauto; lia|]. intros i p Hp.
    apply loop_nth in Hp as [Hi ->]. rewrite Z.add_0_l in *. unfold coordinate_prog.
    destruct (mem_get data (Z.of_nat i)) as [x|]; cbn [lift]; [|exact I]. apply keeps_put; [reflexivity|].
    apply keeps_get; [left; reflexivity|]. intro row. apply keeps_put; [reflexivity|exact I]. }
  destruct (any_schedule tcell_eqb tcell_eqb_ok own_coord m0 _ c m rs D Hs Hf) as [O1 [O2 _]]. split.
  - apply nth_error_ext'. intro i. rewrite !nth_error_map'.
    destruct (nth_error data i) as [x|] eqn:E.
    + assert (Hi : (i < length data)%nat) by (apply nth_error_Some; congruence).
      rewrite zrange_nth by lia. cbn [option_map]. rewrite Z.add_0_l.
      pose proof (loop_nth_ok (coordinate_prog data) 0 n i ltac:(lia)) as Hp. rewrite Z.add_0_l in Hp.
      rewrite (O1 i _ (RowC (Z.of_nat i)) Hp eq_refl), (O1 i _ (ColC (Z.of_nat i)) Hp eq_refl).
      unfold coordinate_prog, mem_get, put_at, get_at. rewrite zget_nth, E, !inside_ok by lia. cbn [of_option lift alone fst].
      cbv beta. cbn [tcell_eqb]. rewrite Z.eqb_refl. reflexivity.
    + apply nth_error_None in E. rewrite (proj2 (nth_error_None _ _)) by (rewrite zrange_length; lia). reflexivity.
  - intro i. split; apply O2; intros j _ [].
Qed.

Section Feature.
Context {N : num}.
Implicit Type m : fcell -> N.

(** ** Residuals *)
Definition residual_loop (y : list N) (n : Z) := map (residual_prog y n) (zrange 0 n).
Definition own_residual (j : nat) (c : fcell) : Prop := match c with TargetC i => i = Z.of_nat j | _ => False end.
Lemma residual_any (y : list N) n m0 c m rs : Z.of_nat (length y) = n ->
  steps fcell_eqb (m0, residual_loop y n) c -> finished c m rs ->
  mapM (fun i => do a <- mem_get y i; do b <- mem_get (map (fun i => m0 (PredC i)) (zrange 0 n)) i; Ok (nf32 (nsub a b))) (zrange 0 n) = Ok rs /\
  map (fun i => m (TargetC i)) (zrange 0 n) = rs /\ forall i, m (PredC i) = m0 (PredC i).
Proof.
  intros Hy Hs Hf.
  assert (D : disjoint_iterations own_residual (residual_loop y n)).
  { split; [intros i j [k|k|k|k]; cbn [own_residual]; try tauto; lia|]. intros i p Hp.
    apply loop_nth in Hp as [Hi ->]. rewrite Z.add_0_l in *. unfold residual_prog.
    destruct (mem_get y (Z.of_nat i)) as [x|]; cbn [lift]; [|exact I]. apply keeps_get; [right; intros j _ []|]. intro b.
    apply keeps_put; [reflexivity|]. apply keeps_get; [left; reflexivity|]. intro t. exact I. }
  destruct (any_schedule fcell_eqb fcell_eqb_ok own_residual m0 _ c m rs D Hs Hf) as [O1 [O2 O3]].
  assert (Q : forall i, 0 <= i < n -> exists a, mem_get y i = Ok a /\
     alone fcell_eqb (residual_prog y n i) m0 = (put fcell_eqb m0 (TargetC i) (nf32 (nsub a (m0 (PredC i)))), Ok (nf32 (nsub a (m0 (PredC i)))))).
  { intros i Hi. destruct (@zget_in_bounds _ y i ltac:(lia)) as [a E].
    exists a. split; [apply mem_get_zget; exact E|]. unfold residual_prog, mem_get, put_at, get_at. rewrite E, !inside_ok by exact Hi.
    cbn [of_option lift alone]. cbv beta. cbn [fcell_eqb]. rewrite Z.eqb_refl. reflexivity. }
  assert (T : forall i, 0 <= i < n -> snd (alone fcell_eqb (residual_prog y n i) m0) = Ok (m (TargetC i)) /\
     (do a <- mem_get y i; do b <- mem_get (map (fun i => m0 (PredC i)) (zrange 0 n)) i; Ok (nf32 (nsub a b))) = Ok (m (TargetC i))).
  { intros i Hi. destruct (Q i Hi) as [a [E1 E2]]. pose proof (loop_nth_ok (residual_prog y n) 0 n (Z.to_nat i) ltac:(lia)) as Hp.
    rewrite Z.add_0_l, Z2Nat.id in Hp by lia.
    rewrite (O1 _ _ (TargetC i) Hp) by (cbn [own_residual]; lia). rewrite E2, E1, get_cells by exact Hi. cbn [snd fst bind].
    rewrite (put_same fcell_eqb fcell_eqb_ok). auto. }
  assert (R : rs = map (fun i => m (TargetC i)) (zrange 0 n)).
  { apply oks_eq. rewrite O3. unfold residual_loop. rewrite !map_map. apply map_ext_in. intros i Hi. apply in_zrange in Hi. apply (T i Hi). }
  split; [|split; [symmetry; exact R|]].
  - rewrite R. apply mapM_ok. intros i Hi. apply in_zrange in Hi. apply (T i Hi).
  - intro i. apply O2. intros j _ [].
Qed.

(** ** A constant in every cell *)
Lemma map_const {X Y} (v : Y) (l : list X) : map (fun _ => v) l = repeat v (length l).
Proof. induction l as [|x l IH]; [reflexivity|]. cbn [map repeat length]. f_equal. exact IH. Qed.
Lemma fill_any mean n m0 c m rs : steps fcell_eqb (m0, map (fill_prog mean n) (zrange 0 n)) c -> finished c m rs ->
  map (fun i => m (PredTreeC i)) (zrange 0 n) = repeat mean (Z.to_nat n) /\
  forall i, m (TargetC i) = m0 (TargetC i) /\ m (PredC i) = m0 (PredC i) /\ m (ImpC i) = m0 (ImpC i).
Proof.
  intros Hs Hf. set (own := fun (j : nat) (c : fcell) => match c with PredTreeC i => i = Z.of_nat j | _ => False end).
  assert (D : disjoint_iterations own (map (fill_prog mean n) (zrange 0 n))).
  { split; [intros i j [k|k|k|k]; cbn [own]; try tauto; lia|]. intros i p Hp.
    apply loop_nth in Hp as [Hi ->]. rewrite Z.add_0_l in *. apply keeps_put; [reflexivity|exact I]. }
  destruct (any_schedule fcell_eqb fcell_eqb_ok own m0 _ c m rs D Hs Hf) as [O1 [O2 _]]. split.
  - rewrite (map_ext_in _ (fun _ => mean)).
    + rewrite map_const, zrange_length. f_equal. lia.
    + intros i Hi. apply in_zrange in Hi. pose proof (loop_nth_ok (fill_prog mean n) 0 n (Z.to_nat i) ltac:(lia)) as Hp.
      rewrite Z.add_0_l, Z2Nat.id in Hp by lia. rewrite (O1 _ _ (PredTreeC i) Hp) by (cbn [own]; lia).
      unfold fill_prog, put_at. rewrite inside_ok by exact Hi. cbn [alone fst]. cbv beta. cbn [fcell_eqb]. rewrite Z.eqb_refl. reflexivity.
  - intro i. repeat split; apply O2; intros j _ [].
Qed.
Lemma zero_any nf m0 c m rs : steps fcell_eqb (m0, map (zero_prog (N:=N) nf) (zrange 0 nf)) c -> finished c m rs ->
  map (fun i => m (ImpC i)) (zrange 0 nf) = repeat nzero (Z.to_nat nf).
Proof.
  intros Hs Hf. set (own := fun (j : nat) (c : fcell) => match c with ImpC i => i = Z.of_nat j | _ => False end).
  assert (D : disjoint_iterations own (map (zero_prog (N:=N) nf) (zrange 0 nf))).
  { split; [intros i j [k|k|k|k]; cbn [own]; try tauto; lia|]. intros i p Hp.
    apply loop_nth in Hp as [Hi ->]. rewrite Z.add_0_l in *. apply keeps_put; [reflexivity|exact I]. }
  destruct (any_schedule fcell_eqb fcell_eqb_ok own m0 _ c m rs D Hs Hf) as [O1 [O2 _]].
  rewrite (map_ext_in _ (fun _ => nzero)).
  - rewrite map_const, zrange_length. f_equal. lia.
  - intros i Hi. apply in_zrange in Hi. pose proof (loop_nth_ok (zero_prog (N:=N) nf) 0 nf (Z.to_nat i) ltac:(lia)) as Hp.
    rewrite Z.add_0_l, Z2Nat.id in Hp by lia. rewrite (O1 _ _ (ImpC i) Hp) by (cbn [own]; lia).
    unfold zero_prog, put_at. rewrite inside_ok by exact Hi. cbn [alone fst]. cbv beta. cbn [fcell_eqb]. rewrite Z.eqb_refl. reflexivity.
Qed.

(** ** Weights *)
Lemma update_any w n m0 c m rs : steps fcell_eqb (m0, map (update_prog w n) (zrange 0 n)) c -> finished c m rs ->
  map (fun i => m (PredTreeC i)) (zrange 0 n) = map (fun v => nf32 (nmul v w)) (map (fun i => m0 (PredTreeC i)) (zrange 0 n)) /\
  mapM (fun i => do a <- mem_get (map (fun i => m0 (PredC i)) (zrange 0 n)) i; do b <- mem_get (map (fun i => m (PredTreeC i)) (zrange 0 n)) i;
                 Ok (nf32 (nadd a b))) (zrange 0 n) = Ok (map (fun i => m (PredC i)) (zrange 0 n)).
Proof.
  intros Hs Hf. set (own := fun (j : nat) (c : fcell) => match c with PredTreeC i | PredC i => i = Z.of_nat j | _ => False end).
  assert (D : disjoint_iterations own (map (update_prog w n) (zrange 0 n))).
  { split; [intros i j [k|k|k|k]; cbn [own]; try tauto; lia|]. intros i p Hp.
    apply loop_nth in Hp as [Hi ->]. rewrite Z.add_0_l in *. unfold update_prog.
    apply keeps_get; [left; reflexivity|]. intro a. apply keeps_put; [reflexivity|].
    apply keeps_get; [left; reflexivity|]. intro b. apply keeps_get; [left; reflexivity|]. intro d.
    apply keeps_put; [reflexivity|exact I]. }
  destruct (any_schedule fcell_eqb fcell_eqb_ok own m0 _ c m rs D Hs Hf) as [O1 [O2 _]].
  assert (Q : forall i, 0 <= i < n -> m (PredTreeC i) = nf32 (nmul (m0 (PredTreeC i)) w) /\
                                      m (PredC i) = nf32 (nadd (m0 (PredC i)) (nf32 (nmul (m0 (PredTreeC i)) w)))).
  { intros i Hi. pose proof (loop_nth_ok (update_prog w n) 0 n (Z.to_nat i) ltac:(lia)) as Hp.
    rewrite Z.add_0_l, Z2Nat.id in Hp by lia.
    rewrite (O1 _ _ (PredTreeC i) Hp), (O1 _ _ (PredC i) Hp) by (cbn [own]; lia).
    unfold update_prog, put_at, get_at. rewrite !inside_ok by exact Hi. cbn [alone fst]. cbv beta. cbn [fcell_eqb]. rewrite Z.eqb_refl. auto. }
  split.
  - rewrite map_map. apply map_ext_in. intros i Hi. apply in_zrange in Hi. apply (Q i Hi).
  - apply mapM_ok. intros i Hi. apply in_zrange in Hi. rewrite !get_cells by exact Hi. cbn [bind]. destruct (Q i Hi) as [-> ->]. reflexivity.
Qed.

(** ** Gains *)
Definition gain_iterations (si : list Z) (yt : list N) (n end_ : Z) (ml mr : N) (first last : Z) : list (prog (A:=fcell) (V:=N) N) :=
  map (gain_prog si yt n end_ ml mr) (zrange first (last + 1)).
Lemma valuation (S : list Z) : NoDup S -> forall g : nat -> N, exists nv, forall k i, nth_error S k = Some i -> nv i = g k.
Proof.
  induction 1 as [|x S Hx ND IH]; intro g.
  - exists (fun _ => nzero). intros [|k] i H; discriminate.
  - destruct (IH (fun k => g (Datatypes.S k))) as [nv H]. exists (fun i => if i =? x then g 0%nat else nv i).
    intros [|k] i E; cbn [nth_error] in E.
    + injection E as <-. rewrite Z.eqb_refl. reflexivity.
    + destruct (Z.eqb_spec i x) as [->|]; [|apply H; exact E]. exfalso. apply Hx. exact (nth_error_In _ _ E).
Qed.
Lemma gain_ends (P S B : list Z) (yt : list N) n end_ ml mr m0 c :
  let its := gain_iterations (P ++ S ++ B) yt n end_ ml mr (Z.of_nat (length P)) (Z.of_nat (length P) + Z.of_nat (length S) - 1) in
  NoDup S -> (forall i, In i S -> 0 <= i < n) -> Z.of_nat (length yt) = n ->
  steps fcell_eqb (m0, its) c ->
  Acc (fun c' c => step fcell_eqb c c') c /\ ((exists c', step fcell_eqb c c') \/ exists m rs, finished c m rs).
Proof.
  intros its ND Hin Hy Hs. split; [apply step_ends|].
  set (own := fun (j : nat) (c : fcell) => match c with PredTreeC i => nth_error S j = Some i | _ => False end).
  set (si := P ++ S ++ B) in *. set (first := Z.of_nat (length P)) in *.
  assert (Hsi : forall k i, nth_error S k = Some i -> zget si (first + Z.of_nat k) = Some i).
  { intros k i E. unfold first, si. rewrite <- Nat2Z.inj_add, zget_nth, nth_error_app2 by lia.
    replace (length P + k - length P)%nat with k by lia. rewrite nth_error_app1; [exact E|]. apply nth_error_Some. congruence. }
  assert (Hits : forall k p, nth_error its k = Some p ->
            exists i v, nth_error S k = Some i /\ 0 <= i < n /\ zget si (first + Z.of_nat k) = Some i /\ zget yt i = Some v /\
                        p = gain_prog si yt n end_ ml mr (first + Z.of_nat k)).
  { intros k p E. apply loop_nth in E as [Hk ->]. assert (k < length S)%nat by (unfold first in Hk; lia).
    destruct (nth_error S k) as [i|] eqn:E; [|apply nth_error_None in E; lia].
    pose proof (Hin i (nth_error_In _ _ E)) as Bi. destruct (@zget_in_bounds _ yt i ltac:(lia)) as [v Hv]. exists i, v. auto. }
  apply (goes_on fcell_eqb fcell_eqb_ok own m0 its); [| |exact Hs].
  - split.
    + intros i j [k|k|k|k]; cbn [own]; try tauto. intros H1 H2.
      assert (Hi : (i < length S)%nat) by (apply nth_error_Some; congruence).
      apply (proj1 (NoDup_nth_error S) ND i j Hi). congruence.
    + intros k p E. destruct (Hits k p E) as [i [v [Ei [_ [E1 [E2 ->]]]]]]. unfold gain_prog, mem_get. rewrite E1. cbn [of_option lift].
      rewrite E2. cbn [of_option lift].
      apply keeps_get; [left; exact Ei|]. intro q. apply keeps_put; [exact Ei|]. apply keeps_get; [left; exact Ei|]. intro p'. exact I.
  - intros p Hp. apply In_nth_error in Hp as [k Hk]. destruct (Hits k p Hk) as [i [v [_ [Bi [E1 [E2 ->]]]]]].
    unfold gain_prog, mem_get, put_at, get_at. rewrite E1. cbn [of_option lift]. rewrite E2. cbn [of_option lift]. rewrite !inside_ok by exact Bi.
    cbn [alone snd]. eexists. reflexivity.
Qed.
Lemma gain_any (P S B : list Z) (yt : list N) n end_ ml mr m0 c m rs :
  let si := P ++ S ++ B in
  let first := Z.of_nat (length P) in
  let last := Z.of_nat (length P) + Z.of_nat (length S) - 1 in
  0 <= last < 2 ^ 32 - 1 -> NoDup S -> (forall i, In i S -> 0 <= i < n) -> Z.of_nat (length yt) = n ->
  steps fcell_eqb (m0, gain_iterations si yt n end_ ml mr first last) c -> finished c m rs ->
  gain_loop (Datatypes.S (length si)) si yt last end_ ml mr first (map (fun i => m0 (PredTreeC i)) (zrange 0 n)) [] =
    Ok (map (fun i => m (PredTreeC i)) (zrange 0 n), rs).
Proof.
  intros si first last Hb ND Hin Hy Hs Hf.
  set (own := fun (j : nat) (c : fcell) => match c with PredTreeC i => nth_error S j = Some i | _ => False end).
  assert (Hsi : forall k i, nth_error S k = Some i -> zget si (first + Z.of_nat k) = Some i).
  { intros k i E. unfold first, si. rewrite <- Nat2Z.inj_add, zget_nth, nth_error_app2 by lia.
    replace (length P + k - length P)%nat with k by lia. rewrite nth_error_app1; [exact E|]. apply nth_error_Some. congruence. }
  assert (Hits : forall k p, nth_error (gain_iterations si yt n end_ ml mr first last) k = Some p ->
            exists i, nth_error S k = Some i /\ p = gain_prog si yt n end_ ml mr (first + Z.of_nat k)).
  { intros k p E. apply loop_nth in E as [Hk ->]. assert (k < length S)%nat by (unfold first, last in Hk; lia).
    destruct (nth_error S k) as [i|] eqn:E; [|apply nth_error_None in E; lia]. exists i. auto. }
  assert (Hits' : forall k i, nth_error S k = Some i ->
            nth_error (gain_iterations si yt n end_ ml mr first last) k = Some (gain_prog si yt n end_ ml mr (first + Z.of_nat k))).
  { intros k i E. apply loop_nth_ok. assert (k < length S)%nat by (apply nth_error_Some; congruence). unfold first, last. lia. }
  assert (D : disjoint_iterations own (gain_iterations si yt n end_ ml mr first last)).
  { split.
    - intros i j [k|k|k|k]; cbn [own]; try tauto. intros H1 H2.
      assert (Hi : (i < length S)%nat) by (apply nth_error_Some; congruence).
      apply (proj1 (NoDup_nth_error S) ND i j Hi). congruence.
    - intros k p E. destruct (Hits k p E) as [i [Ei ->]]. unfold gain_prog, mem_get. rewrite (Hsi k i Ei). cbn [of_option lift].
      destruct (zget yt i) as [v|]; cbn [of_option lift]; [|exact I].
      apply keeps_get; [left; exact Ei|]. intro p. apply keeps_put; [exact Ei|]. apply keeps_get; [left; exact Ei|]. intro p'. exact I. }
  destruct (any_schedule fcell_eqb fcell_eqb_ok own m0 _ c m rs D Hs Hf) as [O1 [O2 O3]].
  destruct (valuation S ND (fun k => if Z.of_nat (length P + k) <=? u32 end_ then ml else mr)) as [nv Hnv].
  set (yv := fun i => nth (Z.to_nat i) yt nzero). set (pv := fun i => m0 (PredTreeC i)).
  assert (Hyv : forall i, 0 <= i < n -> zget yt i = Some (yv i)) by (intros i Hi; apply zget_some_nth; lia).
  destruct (gain_ok yt yv pv nv end_ ml mr last S P B (map pv (zrange 0 n)) [] (Datatypes.S (length si))) as [yp' [E [L [G1 G2]]]].
  { reflexivity. }
  { unfold si. rewrite !app_length. lia. }
  { exact Hb. } { exact ND. }
  { intros k i Ek. symmetry. apply Hnv. exact Ek. }
  { intros i Hi. split; [apply Hyv, Hin; exact Hi|apply cells_zget, Hin; exact Hi]. }
  transitivity (Ok (yp', [] ++ map (term yv pv nv) S)); [exact E|]. clear E.
  assert (Q : forall k i, nth_error S k = Some i ->
     alone fcell_eqb (gain_prog si yt n end_ ml mr (first + Z.of_nat k)) m0 = (put fcell_eqb m0 (PredTreeC i) (nv i), Ok (term yv pv nv i))).
  { intros k i Ek. pose proof (Hin i (nth_error_In _ _ Ek)) as Bi. unfold gain_prog, mem_get, put_at, get_at.
    rewrite (Hsi k i Ek). cbn [of_option lift]. rewrite (Hyv i Bi). cbn [of_option lift]. rewrite !inside_ok by exact Bi.
    cbn [alone]. cbv beta. cbn [fcell_eqb]. rewrite Z.eqb_refl. unfold term, pv.
    rewrite (Hnv k i Ek), Nat2Z.inj_add. reflexivity. }
  f_equal. f_equal.
  - apply zget_ext; [rewrite L, !cells_length; reflexivity|]. intros j Hj. rewrite L, cells_length in Hj.
    rewrite cells_zget by lia. destruct (in_dec Z.eq_dec j S) as [H|H].
    + rewrite (G1 j H). apply In_nth_error in H as [k Hk]. rewrite (O1 k _ (PredTreeC j) (Hits' k j Hk) Hk), (Q k j Hk). cbn [fst].
      rewrite (put_same fcell_eqb fcell_eqb_ok). reflexivity.
    + rewrite (G2 j H), cells_zget by lia. unfold pv. rewrite O2; [reflexivity|]. intros k _ Hk. apply H. exact (nth_error_In _ _ Hk).
  - set (its := gain_iterations si yt n end_ ml mr first last) in *. clearbody its. cbn [app]. apply oks_eq. rewrite O3. apply nth_error_ext'. intro k. rewrite !nth_error_map'.
    destruct (nth_error S k) as [i|] eqn:Ek.
    + rewrite (Hits' k i Ek). cbn [option_map]. rewrite (Q k i Ek). reflexivity.
    + cbn [option_map]. destruct (nth_error its k) as [p|] eqn:Ep; [|reflexivity].
      destruct (Hits k p Ep) as [i [Ei _]]. congruence.
Qed.
End Feature.

(** ** Reductions *)
From Coq Require Import Reals Lra.
From Verif Require Import S_Ensemble L_Feature4.
Lemma summed_total (l : list RE) x : summed (N:=RE) l x -> x = Rtotal l.
Proof.
  induction 1 as [|x|l1 l2 a b _ IH1 _ IH2|l l' a P _ IH].
  - reflexivity.
  - rewrite Rtotal_cons. change (Rtotal []) with 0%R. lra.
  - rewrite Rtotal_app, <- IH1, <- IH2. reflexivity.
  - rewrite IH. apply Rtotal_perm. exact P.
Qed.
