(** Proofs: loading the beginning of a dumped data set. *)
From Coq Require Import Ascii String List ZArith Lia Bool.
From Verif Require Import Base Lists M_Text S_Svmlight L_Text M_Dataset S_Dataset L_Dataset L_Dataset2 M_Svmlight L_Reshape L_Svmlight L_Svmlight2 L_Svmlight3 S_Cut L_Cut L_Cut2 L_Cut3.
Import ListNotations.
Local Open Scope Z_scope.

Lemma words_from_blank l c : is_space c = true -> forall cur, words_from cur (l ++ [c]) = words_from cur l.
Proof.
  intros H. induction l as [|x l IH]; intros cur; cbn [app words_from].
  - rewrite H. destruct (is_nil cur); reflexivity.
  - destruct (is_space x); [|apply IH]. destruct (is_nil cur); [apply IH|]. f_equal. apply IH.
Qed.
Lemma words_blank l c : is_space c = true -> words (l ++ [c]) = words l.
Proof. intros H. apply words_from_blank, H. Qed.

Lemma flat_map_app' {A B} (f : A -> list B) a b : flat_map f (a ++ b) = flat_map f a ++ flat_map f b.
Proof. induction a as [|x a IH]; [reflexivity|]. cbn [app flat_map]. rewrite IH, app_assoc. reflexivity. Qed.
Lemma row_text_blank {V} (F : fmt V) row : row <> [] -> forall first, exists t, row_text F first row = t ++ lit " ".
Proof.
  induction row as [|v row IH]; intros N first; [congruence|]. rewrite row_text_cons. destruct row as [|v' row].
  - exists (pair_text F (first, v)). unfold row_text. cbn [combine length seq flat_map]. rewrite app_nil_r. reflexivity.
  - destruct (IH ltac:(discriminate) (S first)) as (t & ->). exists (pair_text F (first, v) ++ lit " " ++ t). rewrite <- !app_assoc. reflexivity.
Qed.
Lemma begins_long {A} (p a b : list A) : begins p (a ++ b) -> (length a <= length p)%nat -> exists p', p = a ++ p' /\ begins p' b.
Proof.
  intros (r & E). revert p E. induction a as [|x a IH]; intros p E N.
  - exists p. split; [reflexivity|exists r; exact E].
  - destruct p as [|z p]; [cbn in N; lia|]. injection E as <- E. destruct (IH p E ltac:(cbn in N; lia)) as (p' & -> & H). exists p'. split; [reflexivity|exact H].
Qed.

Section Near.
Context {V : Type} (F : fmt V) (num : V -> numtok).

(** Without the newline, or the blank and the newline, the line reads the same. *)
Lemma near_line st first q y row p : label_prints F num y -> Forall (cell_prints F num) row -> - 2 ^ 31 <= q < 2 ^ 31 -> Z.of_nat (first + length row) < 2 ^ 31 -> row <> [] ->
  begins p (line_text F first (Some q) y row) -> (length (line_text F first (Some q) y row) <= length p + 2)%nat ->
  parse_line F p st = parse_line F (line_text F first (Some q) y row) st.
Proof.
  intros P C Q B N H LE. pose proof (row_plain F num row first C B) as RP. rewrite line_parts in *. destruct (row_text_blank F row N first) as (t & E). rewrite E in *.
  rewrite <- (app_assoc t) in *. rewrite (app_assoc (head F q y)) in H. rewrite !app_length in LE. cbn [length lit list_ascii_of_string] in LE.
  destruct (begins_long p _ _ H ltac:(rewrite app_length; lia)) as (p' & -> & Bp). rewrite <- app_assoc.
  assert (PL : Forall plain (t ++ p')). { apply Forall_app in RP as (RP1 & RP2). apply Forall_app. split; [exact RP1|]. eapply begins_Forall; [exact Bp|exact RP2]. }
  rewrite !(parse_head F num) by assumption. do 2 f_equal.
  assert (W : forall s, begins s (lit " " ++ [newline]) -> words (t ++ s) = words t).
  { intros s (r & Es). destruct s as [|c1 [|c2 [|c3 s]]]; [rewrite app_nil_r; reflexivity| | |discriminate].
    - injection Es as <- _. apply words_blank. reflexivity.
    - injection Es as <- <- _. change (t ++ [" "%char; newline]) with (t ++ [" "%char] ++ [newline]). rewrite app_assoc, !words_blank by reflexivity. reflexivity. }
  rewrite (W p' Bp). symmetry. apply W. exists []. reflexivity.
Qed.

Variables (first nf : nat) (L : list (Z * V * list V)).
Hypothesis (F1 : (first <= 1)%nat) (B : Z.of_nat (first + nf) < 2 ^ 31) (NF : (0 < nf)%nat) (GL : Forall (good_row F num first nf) L) (NE : L <> []).

Theorem near_file g : begins g (concat (map (line3 F first) L)) -> (length (concat (map (line3 F first) L)) <= length g + 2)%nat ->
  load_svmlight_file F g = load_svmlight_file F (concat (map (line3 F first) L)).
Proof.
  intros H LE. destruct (exists_last NE) as (L' & r & E).
  assert (GR : good_row F num first nf r) by (rewrite Forall_forall in GL; apply GL; rewrite E; apply in_or_app; right; left; reflexivity).
  destruct r as ((q & y) & row). pose proof GR as (P & C & Q & W). cbn [fst snd] in P, C, Q, W.
  assert (RN : row <> []) by (destruct row; [cbn in W; lia|discriminate]).
  assert (FL : firstn (length L') L = L') by (rewrite E, firstn_app, firstn_all, Nat.sub_diag; cbn [firstn]; apply app_nil_r).
  assert (EC : concat (map (line3 F first) L) = concat (map (line3 F first) L') ++ line3 F first (q, y, row)).
  { rewrite E, map_app, concat_app. cbn [map concat]. rewrite app_nil_r. reflexivity. }
  rewrite EC in H, LE. rewrite app_length in LE.
  destruct (line_body3 F num first nf L F1 B NF GL (q, y, row)) as (b & Eb & LB); [rewrite E; apply in_or_app; right; left; reflexivity|].
  assert (LL : (5 <= length (line3 F first (q, y, row)))%nat).
  { unfold line3. cbn [fst snd]. rewrite line_parts. unfold head. rewrite !app_length. cbn [length lit list_ascii_of_string]. lia. }
  destruct (begins_long g _ _ H ltac:(lia)) as (p & -> & Bp). rewrite app_length in LE.
  destruct (list_eq_dec Ascii.ascii_dec p (line3 F first (q, y, row))) as [-> |ND]; [rewrite EC; reflexivity|].
  pose proof Bp as Bp'. rewrite Eb in Bp'. destruct (begins_body p b Bp') as (_ & LP); [rewrite <- Eb; exact ND|exact LB|].
  assert (PN : p <> []) by (intros ->; cbn [length] in LE; lia).
  assert (FT : file_text (concat (map (line3 F first) L') ++ p) (map (line3 F first) L' ++ [p])).
  { pose proof (firstn_lines F num first nf L F1 B NF GL (length L')) as FF. rewrite FL in FF. pose proof (file_text_last _ p FF LP) as X. destruct p; [congruence|exact X]. }
  assert (FT' : file_text (concat (map (line3 F first) L)) (map (line3 F first) L)).
  { apply file_text_lines. pose proof (firstn_lines F num first nf L F1 B NF GL (length L)) as FF. rewrite firstn_all in FF. exact FF. }
  unfold load_svmlight_file, parse_file. rewrite (file_lines_text _ _ FT), (file_lines_text _ _ FT').
  replace (parse_lines F (map (line3 F first) L' ++ [p]) l_init) with (parse_lines F (map (line3 F first) L) l_init); [reflexivity|].
  pose proof (last_line F num first nf L F1 B NF GL (length L') p _ LP PN eq_refl) as PL. rewrite FL in PL. etransitivity; [|exact PL]. clear PL.
  rewrite near_line with (q := q) (y := y) (row := row) (first := first); [|exact P|exact C|exact Q|rewrite W; exact B|exact RN|exact Bp|unfold line3 in LE, LL; cbn [fst snd] in LE, LL; lia].
  rewrite E at 1. rewrite map_app. cbn [map]. pose proof (first_lines F num first nf L F1 B GL (length L')) as FX. rewrite FL in FX.
  rewrite parse_lines_app, FX; [|].
  - cbn [bind parse_lines]. unfold c_string. rewrite before_none.
    + rewrite is_nil_false by (intros X; rewrite X in LL; cbn in LL; lia). unfold line3. cbn [fst snd]. destruct (parse_line F _ _); reflexivity.
    + rewrite Eb. intros I. apply in_app_or in I as [I|[I|[]]]; [exact (proj2 LB I)|discriminate].
  - intros l I. apply in_map_iff in I as (r & <- & I). destruct (line_body3 F num first nf L F1 B NF GL r) as (b' & -> & _ & X); [rewrite E; apply in_or_app; left; exact I|]. split.
    + intros Y. apply in_app_or in Y as [Y|[Y|[]]]; [exact (X Y)|discriminate].
    + destruct b'; discriminate.
Qed.
End Near.

(** ** Data sets *)
Section Data.
Context {V : Type} (F : fmt V) (num : V -> numtok).
Variables (nf : nat) (X : list (list V)) (y : list V) (ids : list Z) (d : dataset V) (junk : list Z) (f : text).
Hypothesis (BU : built nf X y ids d) (N2 : (2 <= length X)%nat) (NF : (0 < nf)%nat) (HX : Forall (fun r => length r = nf) X) (J : length junk = length ids)
  (HL : Forall (label_prints F num) y) (HC : Forall (Forall (cell_prints F num)) X) (SZ : Z.of_nat (length X * S nf) < 2 ^ 31)
  (D : ds_dump F junk d = Ok f).
Let L := combine (combine ids y) X.
Let LI : length ids = length X /\ length y = length X.
Proof.
  destruct BU as (Y & _ & _ & I). unfold ds_init in I. destruct (Nat.eqb (length ids) (length X)) eqn:E; [|discriminate]. apply Nat.eqb_eq in E. lia.
Qed.
Let GL : Forall (good_row F num 1 nf) L.
Proof.
  apply Forall_forall. intros ((q & v) & row) I. unfold good_row. cbn [fst snd]. pose proof (in_combine_l _ _ _ _ I) as I1. apply in_combine_r in I.
  pose proof (in_combine_l _ _ _ _ I1) as I2. apply in_combine_r in I1. destruct BU as (_ & _ & H32 & _). unfold int32_ids in H32. rewrite Forall_forall in HX, HL, HC, H32. auto.
Qed.
Let EF : f = concat (map (line3 F 1) L).
Proof.
  destruct LI as (L1 & L2). pose proof BU as (Y & G & H32 & I). unfold ds_dump in D.
  rewrite (@unroll_grouped V i32 nf X y ids d junk I J G), map_i32_id in D by exact H32. destruct (built_inv _ _ _ _ _ BU) as (Ex & Ey & _). rewrite Ex, Ey in D.
  rewrite (dumped F false X y ids) in D by (assumption || lia). injection D as <-. reflexivity.
Qed.
Let LN : length L = length X.
Proof. unfold L. rewrite !combine_length. lia. Qed.
Let B1 : Z.of_nat (1 + nf) < 2 ^ 31.
Proof. nia. Qed.
Let LE : L <> [].
Proof. intros E. rewrite E in LN. cbn in LN. lia. Qed.
Let Lrows m : map snd (firstn m L) = firstn m X.
Proof. apply map_snd_firstn. rewrite combine_length. lia. Qed.
Let Lids m : map (fun r => fst (fst r)) (firstn m L) = firstn m ids.
Proof. rewrite <- (map_map fst fst). unfold L. rewrite map_fst_firstn by (rewrite combine_length; lia). apply map_fst_firstn. lia. Qed.
Let Llabels m : map (fun r => snd (fst r)) (firstn m L) = firstn m y.
Proof. rewrite <- (map_map fst snd). unfold L. rewrite map_fst_firstn by (rewrite combine_length; lia). apply map_snd_firstn. lia. Qed.
Let Lnth m q v row : nth_error L m = Some (q, v, row) -> (m < length X)%nat /\ nth m ids 0 = q /\ firstn m y ++ [v] = firstn (S m) y /\ nth m X [] = row.
Proof.
  intros E. assert (M : (m < length L)%nat) by (apply nth_error_Some; congruence). rewrite LN in M. split; [exact M|].
  apply (nth_error_nth _ _ (0, vzero F, [])) in E. unfold L in E. rewrite !List.combine_nth in E by (rewrite ?combine_length; lia). injection E as E1 E2 E3.
  split; [exact E1|]. split; [|exact E3]. rewrite <- E2. destruct LI as (_ & LY). clear - M LY. rewrite <- LY in M. clear LY. revert m M.
  induction y as [|a l IH]; intros m M; [cbn in M; lia|]. destruct m; [reflexivity|]. cbn [firstn nth app]. f_equal. apply IH. cbn in M. lia.
Qed.

Theorem C96_cut_lemma g : begins g f ->
  let m := newlines g in
  (m <= length X)%nat /\
  (load_svmlight_file F g = Err RuntimeError \/
   g = [] /\ load_svmlight_file F g = Err ZeroDivisionError \/
   (0 < m)%nat /\ load_svmlight_file F g = Ok (nf, firstn m X, firstn m y, firstn m ids) \/
   exists w q cells, (m < length X)%nat /\
     load_svmlight_file F g = Ok (w, firstn m X ++ [map (clamp F) cells], firstn (S m) y, firstn m ids ++ [q]) /\
     length cells = w /\ (0 < m -> w = nf)%nat /\ (w <= nf)%nat /\ cut_cells F w (nth m X []) cells /\ cut_id F w (nth m ids 0) q cells).
Proof.
  intros H. rewrite EF in H. destruct (cut_file F num 1 nf L (le_n _) B1 NF GL g LE H) as (M & C). cbv zeta. rewrite LN in M. split; [exact M|].
  rewrite Lrows, Lids, Llabels in C. destruct C as [C|[C|[(C0 & _ & C)|(q & v & row & w & q' & cells & E & C & R)]]]; [left; exact C|right; left; exact C|right; right; left; auto|].
  right. right. right. destruct (Lnth _ _ _ _ E) as (M1 & <- & E2 & <-). rewrite E2 in C. exists w, q', cells. auto.
Qed.
Lemma grouped_firstn m : grouped ids -> grouped (firstn m ids).
Proof.
  intros G i j k a O Hi Hk. assert (K : (k < m)%nat). { assert (nth_error (firstn m ids) k <> None) as Z by congruence. apply nth_error_Some in Z. rewrite firstn_length in Z. lia. }
  rewrite nth_error_firstn in *. replace (i <? m)%nat with true in Hi by (symmetry; apply Nat.ltb_lt; lia). replace (k <? m)%nat with true in Hk by (symmetry; apply Nat.ltb_lt; lia). replace (j <? m)%nat with true by (symmetry; apply Nat.ltb_lt; lia). eapply G; eauto.
Qed.
Theorem C96_whole_lines_lemma g : begins (g ++ [newline]) f ->
  let m := newlines (g ++ [newline]) in
  exists d', ds_load F (g ++ [newline]) = Ok d' /\ built nf (firstn m X) (firstn m y) (firstn m ids) d' /\ rows d' = firstn m (rows d).
Proof.
  intros H. set (h := g ++ [newline]) in *. rewrite EF in H. destruct (begins_concat _ _ H) as (m & p & E & M & C).
  rewrite map_length in M, C.
  assert (P0 : p = []).
  { destruct C as [(C & _)|(l & N & Bp & Dp)]; [exact C|]. rewrite nth_error_map in N. destruct (nth_error L m) as [r|] eqn:R; [|discriminate]. injection N as <-.
    destruct (line_body3 F num 1 nf L (le_n _) B1 NF GL r (nth_error_In _ _ R)) as (b & Eb & LB). rewrite Eb in Bp, Dp. destruct (begins_body p b Bp Dp LB) as (_ & (NL & _)).
    destruct p as [|c p]; [reflexivity|]. exfalso. apply NL. assert (PN : c :: p <> []) by discriminate. destruct (exists_last PN) as (p' & z & Ez). rewrite Ez in *. unfold h in E. rewrite app_assoc in E. apply app_inj_tail in E as (_ & <-). apply in_or_app. right. left. reflexivity. }
  subst p. rewrite app_nil_r in E. cbv zeta. assert (NM : newlines h = m). { rewrite E, (newlines_lines F num 1 nf L (le_n _) B1 NF GL). lia. } rewrite NM.
  assert (M0 : (0 < m)%nat) by (destruct m; [destruct g; discriminate|lia]).
  rewrite firstn_map in E. pose proof (whole_lines F num 1 nf L (le_n _) B1 NF GL m M0 LE) as WL. rewrite <- E, Lrows, Lids, Llabels in WL.
  unfold ds_load. rewrite WL. cbn [bind]. destruct LI as (L1 & L2).
  assert (I : exists d', ds_init nf (firstn m X) (firstn m y) (firstn m ids) = Ok d').
  { unfold ds_init. rewrite !firstn_length, L1, Nat.eqb_refl. cbn [negb]. destruct (compact_ids (firstn m ids)). eexists. reflexivity. }
  destruct I as (d' & I). exists d'. split; [exact I|].
  assert (BU' : built nf (firstn m X) (firstn m y) (firstn m ids) d').
  { destruct BU as (Y & G & H32 & _). split; [rewrite !firstn_length; lia|]. split; [apply grouped_firstn, G|]. split; [|exact I].
    unfold int32_ids in *. rewrite Forall_forall in *. intros q Hq. apply H32, (In_firstn ids m), Hq. }
  split; [exact BU'|]. rewrite (built_rows _ _ _ _ _ BU'), (built_rows _ _ _ _ _ BU). unfold rows_of. rewrite !combine_firstn. reflexivity.
Qed.
Theorem C96_nearly_lemma g : begins g f -> (length f <= length g + 2)%nat -> ds_load F g = Ok d.
Proof.
  intros H LQ. rewrite EF in H, LQ. unfold ds_load. rewrite (near_file F num 1 nf L (le_n _) B1 NF GL LE g H LQ).
  pose proof (whole_lines F num 1 nf L (le_n _) B1 NF GL (length L) ltac:(lia) LE) as WL. rewrite Lrows, Lids, Llabels in WL. rewrite firstn_all in WL. rewrite WL. cbn [bind].
  destruct LI as (L1 & L2). rewrite LN, firstn_all, !firstn_all2 by lia. destruct BU as (_ & _ & _ & I). exact I.
Qed.
End Data.
