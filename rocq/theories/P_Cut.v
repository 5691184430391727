(** Property C96: data files of which only the beginning was written. *)
From Coq Require Import Ascii String List ZArith Lia Bool.
From Verif Require Import Base M_Text M_Dataset S_Dataset M_Svmlight S_Svmlight L_Svmlight2 L_Svmlight4 M_Float L_Float L_Float2 S_Cut L_Cut4.
Import ListNotations.
Local Open Scope Z_scope.

(** The file holds [m] whole lines, then perhaps part of one.  Either the load fails, or the
    first [m] rows come back as they were dumped, followed by at most one more row with its own
    label; of that row, the cells before the cut come back, at most one cell is read from a
    beginning of its text, and the others are zero. *)
Theorem C96_beginning_of_a_file : forall (V : Type) (F : fmt V) (num : V -> numtok) nf (X : list (list V)) y ids d junk f g,
  built nf X y ids d -> (2 <= length X)%nat -> (0 < nf)%nat -> Forall (fun r => length r = nf) X ->
  length junk = length ids -> Forall (label_prints F num) y -> Forall (Forall (cell_prints F num)) X ->
  Z.of_nat (length X * S nf) < 2 ^ 31 -> ds_dump F junk d = Ok f -> begins g f ->
  let m := newlines g in
  (m <= length X)%nat /\
  (load_svmlight_file F g = Err RuntimeError \/
   g = [] /\ load_svmlight_file F g = Err ZeroDivisionError \/
   (0 < m)%nat /\ load_svmlight_file F g = Ok (nf, firstn m X, firstn m y, firstn m ids) \/
   exists w q cells, (m < length X)%nat /\
     load_svmlight_file F g = Ok (w, firstn m X ++ [map (clamp F) cells], firstn (S m) y, firstn m ids ++ [q]) /\
     length cells = w /\ (0 < m -> w = nf)%nat /\ (w <= nf)%nat /\
     cut_cells F w (nth m X []) cells /\ cut_id F w (nth m ids 0) q cells).
Proof. intros V F num nf X y ids d junk f g BU N2 NF HX J HL HC SZ D. exact (C96_cut_lemma F num nf X y ids d junk f BU N2 NF HX J HL HC SZ D g). Qed.
Print Assumptions C96_beginning_of_a_file.

(** If the file ends after a newline, the data set of exactly those rows is loaded. *)
Theorem C96_whole_lines : forall (V : Type) (F : fmt V) (num : V -> numtok) nf (X : list (list V)) y ids d junk f g,
  built nf X y ids d -> (2 <= length X)%nat -> (0 < nf)%nat -> Forall (fun r => length r = nf) X ->
  length junk = length ids -> Forall (label_prints F num) y -> Forall (Forall (cell_prints F num)) X ->
  Z.of_nat (length X * S nf) < 2 ^ 31 -> ds_dump F junk d = Ok f -> begins (g ++ [newline]) f ->
  let m := newlines (g ++ [newline]) in
  exists d', ds_load F (g ++ [newline]) = Ok d' /\ built nf (firstn m X) (firstn m y) (firstn m ids) d' /\
    rows d' = firstn m (rows d).
Proof. intros V F num nf X y ids d junk f g BU N2 NF HX J HL HC SZ D. exact (C96_whole_lines_lemma F num nf X y ids d junk f BU N2 NF HX J HL HC SZ D g). Qed.
Print Assumptions C96_whole_lines.

(** The last newline, and the blank before it, may be missing. *)
Theorem C96_last_newline_missing : forall (V : Type) (F : fmt V) (num : V -> numtok) nf (X : list (list V)) y ids d junk f g,
  built nf X y ids d -> (2 <= length X)%nat -> (0 < nf)%nat -> Forall (fun r => length r = nf) X ->
  length junk = length ids -> Forall (label_prints F num) y -> Forall (Forall (cell_prints F num)) X ->
  Z.of_nat (length X * S nf) < 2 ^ 31 -> ds_dump F junk d = Ok f -> begins g f ->
  (length f <= length g + 2)%nat -> ds_load F g = Ok d.
Proof. intros V F num nf X y ids d junk f g BU N2 NF HX J HL HC SZ D. exact (C96_nearly_lemma F num nf X y ids d junk f BU N2 NF HX J HL HC SZ D g). Qed.
Print Assumptions C96_last_newline_missing.

(** float32 data: whatever the finite values are. *)
Theorem C96_float32 : forall nf (X : list (list f32)) y ids d junk f g,
  built nf X y ids d -> (2 <= length X)%nat -> (0 < nf)%nat -> Forall (fun r => length r = nf) X ->
  length junk = length ids -> Forall finite y -> Forall (Forall finite) X ->
  Z.of_nat (length X * S nf) < 2 ^ 31 -> ds_dump F32 junk d = Ok f -> begins g f ->
  let m := newlines g in
  (m <= length X)%nat /\
  (ds_load F32 g = Err RuntimeError \/
   g = [] /\ ds_load F32 g = Err ZeroDivisionError \/
   exists d', ds_load F32 g = Ok d' /\ firstn m (ds_X d') = firstn m X /\ (length (ds_X d') <= S m)%nat /\
     ds_y d' = firstn (length (ds_X d')) y).
Proof.
  intros nf X y ids d junk f g BU N2 NF HX J HL HC SZ D H.
  assert (LI : length ids = length X /\ length y = length X).
  { destruct BU as (Y & _ & _ & I). unfold ds_init in I. destruct (Nat.eqb (length ids) (length X)) eqn:E; [|discriminate]. apply Nat.eqb_eq in E. lia. }
  destruct LI as (LI & LY).
  destruct (C96_cut_lemma F32 f32_tok nf X y ids d junk f BU N2 NF HX J) with (g := g) as (M & C); try assumption.
  - eapply Forall_impl; [|exact HL]. intros v Hv. apply f32_prints; auto.
  - eapply Forall_impl; [|exact HC]. intros r Hr. eapply Forall_impl; [|exact Hr]. intros v Hv. apply f32_prints; auto.
  - cbv zeta in *. split; [exact M|]. unfold ds_load.
    destruct C as [-> |[(G & ->)|[(M0 & ->)|(w & q & cells & M1 & -> & _)]]]; cbn [bind]; [left; reflexivity|right; left; auto| |]; right; right.
    + unfold ds_init. rewrite !firstn_length, LI, Nat.eqb_refl. cbn [negb]. destruct (compact_ids _). eexists. split; [reflexivity|]. cbn [ds_X ds_y].
      split; [apply firstn_all2; rewrite firstn_length; lia|]. split; [rewrite firstn_length; lia|]. rewrite firstn_length, Nat.min_l by lia. reflexivity.
    + unfold ds_init. rewrite !app_length, !firstn_length, LI, Nat.eqb_refl. cbn [negb]. destruct (compact_ids _). eexists. split; [reflexivity|]. cbn [ds_X ds_y].
      assert (FL : length (firstn (newlines g) X) = newlines g) by (rewrite firstn_length; lia).
      rewrite app_length, FL. cbn [length]. split; [|split; [lia|f_equal; lia]]. rewrite <- FL at 1. rewrite firstn_app, firstn_all, Nat.sub_diag. cbn [firstn]. apply app_nil_r.
Qed.
Print Assumptions C96_float32.

(** The three rows below, cut after every number of characters. *)
Definition C96_cut (ids : list Z) (n : nat) : res (dataset Z) :=
  do d <- ds_init 2 [[1; -20]; [0; 3]; [4; 125]] [2; 0; 1] ids; do f <- ds_dump ZF [0; 0; 0] d; ds_load ZF (firstn (length f - n) f).
Example C96_example :
  map (C96_cut [1; 17; 17]) [0; 1; 2; 20; 9; 100]%nat =
  let d := mkDataset [[1; -20]; [0; 3]; [4; 125]] 2 [2; 0; 1] [1; 17] [0; 1; 3]%nat in
  [Ok d; Ok d; Ok d; Ok (mkDataset [[1; -20]; [0; 3]] 2 [2; 0] [1; 17] [0; 1; 2]%nat); Err RuntimeError; Err ZeroDivisionError].
Proof. vm_compute. reflexivity. Qed.
(** Not every cut is noticed, and the last row need not be one that was dumped: the value 125
    comes back as 12, *)
Theorem C96_cut_value_refuted : exists d, C96_cut [1; 17; 17] 3 = Ok d /\ ds_X d = [[1; -20]; [0; 3]; [4; 12]].
Proof. exists (mkDataset [[1; -20]; [0; 3]; [4; 12]] 2 [2; 0; 1] [1; 17] [0; 1; 3]%nat). repeat split; vm_compute; reflexivity. Qed.
(** the cells after the cut as zeros, *)
Theorem C96_lost_cells_refuted : exists d, C96_cut [1; 17; 17] 11 = Ok d /\ ds_X d = [[1; -20]; [0; 3]; [0; 0]].
Proof. exists (mkDataset [[1; -20]; [0; 3]; [0; 0]] 2 [2; 0; 1] [1; 17] [0; 1; 3]%nat). repeat split; vm_compute; reflexivity. Qed.
(** and query 17 as a query 1 that was not there. *)
Theorem C96_cut_query_refuted : exists d, C96_cut [3; 5; 17] 13 = Ok d /\ get_qids_dataset d = [3; 5; 1].
Proof. exists (mkDataset [[1; -20]; [0; 3]; [0; 0]] 2 [2; 0; 1] [3; 5; 1] [0; 1; 2; 3]%nat). repeat split; vm_compute; reflexivity. Qed.
(** A first row without its cells gives a data set without features. *)
Theorem C96_no_features_refuted : exists d, C96_cut [1; 17; 17] 49 = Ok d /\ ds_X d = [[]] /\ ds_nf d = 0%nat.
Proof. exists (mkDataset [[]] 0 [2] [1] [0; 1]%nat). repeat split; vm_compute; reflexivity. Qed.
