(** Properties C11-C15 and C63 (svmlight files). *)
From Coq Require Import Ascii String List ZArith QArith Lia Bool Sorted.
From Verif Require Import Base Lists M_Text M_Dataset M_Svmlight S_Dataset S_Svmlight
  L_Dataset L_Text L_Reshape L_Svmlight L_Svmlight2 L_Svmlight3 L_Svmlight4 T_Svmlight M_Float L_Float L_Float2.
Import ListNotations.
Local Open Scope Z_scope.

(** C11 *)
Theorem C11_line_is_read_densely : forall (V : Type) (F : fmt V) l e (st : lstate) M w y,
  data_line l e -> increasing (en_pairs e) -> rd_label F (en_label e) = Some y ->
  holds M w st -> (w = 0%nat -> M = [] \/ en_pairs e = []) -> (w <> 0%nat -> M <> []) ->
  Z.of_nat (length M * Nat.max w (widest (en_pairs e))) < 2 ^ 31 ->
  exists st', parse_line F l st = Ok st' /\
    l_labels st' = l_labels st ++ [y] /\
    l_qids st' = l_qids st ++ somes [en_qid e] /\
    holds (map (fun r => r ++ repeat (vzero F) (Nat.max w (widest (en_pairs e)) - w)) M
           ++ [dense F (Nat.max w (widest (en_pairs e))) (en_pairs e)])
          (Nat.max w (widest (en_pairs e))) st'.
Proof. exact (@C11_increasing_lemma). Qed.
Print Assumptions C11_line_is_read_densely.

(** Without the assumption on the ids: the columns are those of [en_cols]. *)
Theorem C11_line_any_order : forall (V : Type) (F : fmt V) l e (st : lstate) M w y,
  data_line l e -> rd_label F (en_label e) = Some y ->
  holds M w st -> (w = 0%nat -> M = [] \/ en_pairs e = []) -> (w <> 0%nat -> M <> []) ->
  Z.of_nat (length M * Nat.max w (widest (en_cols e))) < 2 ^ 31 ->
  exists st', parse_line F l st = Ok st' /\
    l_labels st' = l_labels st ++ [y] /\
    l_qids st' = l_qids st ++ somes [en_qid e] /\
    holds (map (fun r => r ++ repeat (vzero F) (Nat.max w (widest (en_cols e)) - w)) M
           ++ [dense F (Nat.max w (widest (en_cols e))) (en_cols e)])
          (Nat.max w (widest (en_cols e))) st'.
Proof. exact (@C11_lemma). Qed.
Print Assumptions C11_line_any_order.

(** "2 qid:37 <tab>2:1.5 4:-3 # c" *)
Definition ex_line : text := lit "2 qid:37 " ++ [ascii_of_nat 9] ++ lit "2:1.5 4:-3 # c".
Definition ex_entry : entry :=
  mkEntry (Dec false 2 0) (Some 37) [(2, Dec false 15 (-1)); (4, Dec true 3 0)].
Ltac chars := repeat constructor; cbn; tauto.
Example ex_data_line : data_line ex_line ex_entry.
Proof.
  apply (data_line_intro [] (lit "2") (Dec false 2 0) (lit " qid:37") (Some 37)
           (lit " " ++ [ascii_of_nat 9] ++ lit "2:1.5 4:-3")
           [(2, Dec false 15 (-1)); (4, Dec true 3 0)] (lit " ") (lit "# c")).
  - constructor.
  - apply (numeral_intro [] false (lit "2") [] [] [] 0); [constructor|chars|chars|discriminate|auto|constructor].
  - apply (qid_some (lit " ") (lit "37") 37); [chars|discriminate|].
    exists [], false, (lit "37"). repeat split; try constructor; try chars; try discriminate; reflexivity.
  - apply (pairs_cons (lit " " ++ [ascii_of_nat 9]) (lit "2") 2 (lit "1.5") (Dec false 15 (-1))
             (lit " 4:-3") [(4, Dec true 3 0)]); [chars|discriminate| | |].
    + repeat split; [chars|discriminate].
    + apply (numeral_intro [] false (lit "1") (lit ".") (lit "5") [] 0); [constructor|chars|chars|discriminate|auto|constructor].
    + apply (pairs_cons (lit " ") (lit "4") 4 (lit "-3") (Dec true 3 0) [] []); [chars|discriminate| | |constructor].
      * repeat split; [chars|discriminate].
      * apply (numeral_intro (lit "-") true (lit "3") [] [] [] 0); [constructor|chars|chars|discriminate|auto|constructor].
  - chars.
  - left. discriminate.
  - right. exists (lit " c"). reflexivity.
Qed.
Example ex_increasing : increasing (en_pairs ex_entry).
Proof. split; repeat constructor; cbn; lia. Qed.
(** The hypotheses of C11 hold for this line after one row of width 3, which is widened. *)
Example C11_example :
  holds [[1; 2; 3]]%Q 3 (mkL [1; 2; 3]%Q [0]%Q [7] 3) /\
  rd_label QF (en_label ex_entry) = Some 2%Q /\ widest (en_pairs ex_entry) = 4%nat /\
  parse_line QF ex_line (mkL [1; 2; 3]%Q [0]%Q [7] 3)
  = Ok (mkL [1; 2; 3; 0; 0; 3 # 2; 0; -(3)]%Q [0; 2]%Q [7; 37] 4).
Proof. split; [split; [reflexivity|split; [repeat constructor|reflexivity]]|]. repeat split; vm_compute; reflexivity. Qed.

(** Ids that decrease, repeat or are 0 are not rejected: their values go to other columns. *)
Theorem C11_other_ids_misplaced_refuted :
  exists l, parse_line QF (lit l) l_init = Ok (mkL [0; 0; 30; 10; 4]%Q [1]%Q [] 5) /\
    l = "1 3:30 1:10 0:4"%string.
Proof. exists "1 3:30 1:10 0:4"%string. split; vm_compute; reflexivity. Qed.

(** C12 *)
Theorem C12_reshape_keeps_cells : forall (V : Type) (F : fmt V) (rows : list (list V)) (last : list V) (old new : nat),
  (0 < old)%nat -> (old < new)%nat -> rows <> [] ->
  Forall (fun r => length r = old) rows -> length last = new ->
  Z.of_nat (length rows * new) < 2 ^ 31 ->
  reshape_data F (concat rows ++ last) (Z.of_nat old) (Z.of_nat new)
  = Ok (concat (map (fun r => r ++ repeat (vzero F) (new - old)) rows) ++ last).
Proof. exact (@C12_lemma). Qed.
Print Assumptions C12_reshape_keeps_cells.

Example C12_example : Forall (fun r => length r = 2%nat) [[1; 2]; [3; 4]; [5; 6]]%Q /\
  reshape_data QF [1; 2; 3; 4; 5; 6; 7; 8; 9; 10; 11]%Q 2 5
  = Ok [1; 2; 0; 0; 0; 3; 4; 0; 0; 0; 5; 6; 0; 0; 0; 7; 8; 9; 10; 11]%Q.
Proof. split; [repeat constructor|vm_compute; reflexivity]. Qed.

(** The first block moved overlaps its destination, for which the C++ standard gives
    std::copy no meaning; copied cell by cell instead of with memmove it would be lost. *)
Theorem C12_overlapping_copy_refuted :
  exists data src len dst, src < dst < src + len /\
    copy_block (V := Z) data src len dst = Ok [1; 2; 3; 3; 4; 5] /\
    copy_cells data src len dst = Ok [1; 2; 3; 3; 3; 3].
Proof. exists [1; 2; 3; 4; 5; 0], 2, 3, 3. split; [lia|]. split; vm_compute; reflexivity. Qed.
(** ... and this is the block moved when a row of width 3 follows one row of width 2. *)
Example C12_overlap_happens :
  reshape_step QF 2 3 1 ([1; 2; 3; 4; 5; 0]%Q, 2, 1) 0 =
  bind (copy_block [1; 2; 3; 4; 5; 0]%Q 2 3 (2 + 1)) (fun d => Ok (d, 0, 0)).
Proof. vm_compute. reflexivity. Qed.

(** C13 *)
Theorem C13_file_is_the_dense_matrix : forall (V : Type) (F : fmt V) f ls es ys,
  file_text f ls -> entries ls es -> Forall (fun e => increasing (en_pairs e)) es -> es <> [] ->
  ((exists e r, es = e :: r /\ en_pairs e <> []) \/ (forall e, In e es -> en_pairs e = [])) ->
  Forall2 (fun e y => rd_label F (en_label e) = Some y) es ys ->
  Z.of_nat (length es * width es) < 2 ^ 31 ->
  load_svmlight_file F f =
    Ok (width es, map (fun e => map (clamp F) (dense F (width es) (en_pairs e))) es, ys,
        somes (map en_qid es)).
Proof. exact (@C13_increasing_lemma). Qed.
Print Assumptions C13_file_is_the_dense_matrix.

Theorem C13_file_any_order : forall (V : Type) (F : fmt V) f ls es ys,
  file_text f ls -> entries ls es -> es <> [] ->
  ((exists e r, es = e :: r /\ en_pairs e <> []) \/ (forall e, In e es -> en_pairs e = [])) ->
  Forall2 (fun e y => rd_label F (en_label e) = Some y) es ys ->
  Z.of_nat (length es * cols_width es) < 2 ^ 31 ->
  load_svmlight_file F f =
    Ok (cols_width es, map (fun e => map (clamp F) (dense F (cols_width es) (en_cols e))) es, ys,
        somes (map en_qid es)).
Proof. exact (@C13_lemma). Qed.
Print Assumptions C13_file_any_order.

(** Leading rows without features: an exception or a matrix that is too narrow. *)
Theorem C13_leading_featureless_rows : forall (V : Type) (F : fmt V) f ls es0 es1 ys,
  file_text f ls -> entries ls (es0 ++ es1) -> es0 <> [] ->
  (forall e, In e es0 -> en_pairs e = []) ->
  (exists e r, es1 = e :: r /\ en_pairs e <> []) ->
  Forall2 (fun e y => rd_label F (en_label e) = Some y) (es0 ++ es1) ys ->
  Z.of_nat (length (es0 ++ es1) * cols_width es1) < 2 ^ 31 ->
  load_svmlight_file F f = Err ValueError \/
  exists nf X, load_svmlight_file F f = Ok (nf, X, ys, somes (map en_qid (es0 ++ es1))) /\
    (nf < cols_width es1)%nat.
Proof. exact (@C13_leading_lemma). Qed.
Print Assumptions C13_leading_featureless_rows.

Example C13_example :
  exists ls es, file_text (lit "# c" ++ [newline] ++ ex_line) ls /\ entries ls es /\ es = [ex_entry] /\
    load_svmlight_file QF (lit "# c" ++ [newline] ++ ex_line)
    = Ok (4%nat, [[0; 3 # 2; 0; -(3)]]%Q, [2]%Q, [37]).
Proof.
  assert (Hb : forall b, forallb (fun c => negb (Ascii.eqb c newline || Ascii.eqb c nul)) b = true -> line_body b).
  { intros b H. rewrite forallb_forall in H. split; intros Hin; apply H in Hin; vm_compute in Hin; discriminate. }
  exists [lit "# c" ++ [newline]; ex_line], [ex_entry].
  split; [|split; [|split; [reflexivity|vm_compute; reflexivity]]].
  - apply (file_cons (lit "# c") ex_line [ex_line]).
    + apply Hb. vm_compute. reflexivity.
    + apply file_last; [apply Hb; vm_compute; reflexivity|discriminate].
  - apply entries_comment.
    + exists (lit " c" ++ [newline]). reflexivity.
    + apply entries_data; [exact ex_data_line|constructor].
Qed.

(** The row of query 1 has no feature; the four values of query 2 are spread over both rows. *)
Theorem C13_leading_featureless_refuted :
  exists f X, load_svmlight_file QF f = Ok (2%nat, X, [1; 0]%Q, [1; 2]) /\
    X = [[5; 6]; [7; 8]]%Q /\ f = unlines ["1 qid:1"; "0 qid:2 1:5 2:6 3:7 4:8"]%string.
Proof.
  exists (unlines ["1 qid:1"; "0 qid:2 1:5 2:6 3:7 4:8"]%string), [[5; 6]; [7; 8]]%Q.
  split; [|split]; vm_compute; reflexivity.
Qed.

(** C14 *)
Theorem C14_dump_load_identity : forall (V : Type) (F : fmt V) (num : V -> numtok) nf (X : list (list V)) y ids d junk,
  built nf X y ids d -> (2 <= length X)%nat -> (0 < nf)%nat -> Forall (fun r => length r = nf) X ->
  length junk = length ids -> Forall (label_prints F num) y -> Forall (Forall (cell_prints F num)) X ->
  Z.of_nat (length X * S nf) < 2 ^ 31 ->
  exists f, ds_dump F junk d = Ok f /\ ds_load F f = Ok d.
Proof. exact (@C14_dataset_lemma). Qed.
Print Assumptions C14_dump_load_identity.

(** One instance: the query id is lost. *)
Theorem C14_single_instance : forall (V : Type) (F : fmt V) (num : V -> numtok) nf (row : list V) y q d junk,
  built nf [row] [y] [q] d -> (0 < nf)%nat -> length row = nf -> length junk = 1%nat ->
  label_prints F num y -> Forall (cell_prints F num) row -> Z.of_nat (S nf) < 2 ^ 31 ->
  exists f, ds_dump F junk d = Ok f /\ load_svmlight_file F f = Ok (nf, [row], [y], []) /\
    ds_load F f = Err PlainException.
Proof. exact (@C14_single_lemma). Qed.
Print Assumptions C14_single_instance.

(** The functions themselves; [zb] is zero_based, which the loader cannot see: the file
    still loads to the same matrix. *)
Theorem C14_dump_file_load_file : forall (V : Type) (F : fmt V) (num : V -> numtok) zb nf (X : list (list V)) y qids,
  (0 < length X)%nat -> (0 < nf)%nat -> Forall (fun r => length r = nf) X -> length y = length X ->
  ((1 < length qids)%nat -> length qids = length X) -> int32_ids qids ->
  Forall (label_prints F num) y -> Forall (Forall (cell_prints F num)) X ->
  Z.of_nat (length X * S nf) < 2 ^ 31 ->
  exists f, dump_svmlight_file F zb X y qids = Ok f /\
    load_svmlight_file F f = Ok (nf, X, y, if Nat.ltb 1 (length qids) then qids else []).
Proof. exact (@C14_lemma). Qed.
Print Assumptions C14_dump_file_load_file.

(** For matrices of integers nothing is left to assume about printing. *)
Theorem C14_integers : forall nf (X : list (list Z)) y ids d junk,
  built nf X y ids d -> (2 <= length X)%nat -> (0 < nf)%nat -> Forall (fun r => length r = nf) X ->
  length junk = length ids -> Z.of_nat (length X * S nf) < 2 ^ 31 ->
  exists f, ds_dump ZF junk d = Ok f /\ ds_load ZF f = Ok d.
Proof. exact (@C14_integers_lemma). Qed.
Print Assumptions C14_integers.

(** float32 data, printed with nine digits and read by the C library: any finite matrix. *)
Theorem C14_float32 : forall nf (X : list (list f32)) y ids d junk,
  built nf X y ids d -> (2 <= length X)%nat -> (0 < nf)%nat -> Forall (fun r => length r = nf) X ->
  length junk = length ids -> Forall finite y -> Forall (Forall finite) X ->
  Z.of_nat (length X * S nf) < 2 ^ 31 ->
  exists f, ds_dump F32 junk d = Ok f /\ ds_load F32 f = Ok d.
Proof. exact (@C14_float32_lemma). Qed.
Print Assumptions C14_float32.
Theorem C14_float32_single_instance : forall nf (row : list f32) y q d junk,
  built nf [row] [y] [q] d -> (0 < nf)%nat -> length row = nf -> length junk = 1%nat ->
  finite y -> Forall finite row -> Z.of_nat (S nf) < 2 ^ 31 ->
  exists f, ds_dump F32 junk d = Ok f /\ load_svmlight_file F32 f = Ok (nf, [row], [y], []) /\
    ds_load F32 f = Err PlainException.
Proof. exact (@C14_float32_single_lemma). Qed.
Print Assumptions C14_float32_single_instance.
(** 0.1, the largest float32, the smallest subnormal and -0. *)
Example C14_float32_example :
  (do d <- ds_init 2 [[Fin false 1036831949; Fin true 2139095039]; [Fin false 1; Fin true 0]] [Fin false 1065353216; Fin false 0] [7; 3];
   do f <- ds_dump F32 [0; 0] d; do d' <- ds_load F32 f; Ok (f, ds_X d'))
  = Ok (unlines ["1 qid:7 1:0.100000001 2:-3.40282347e+38 "; "0 qid:3 1:1.40129846e-45 2:-0 "]%string,
        [[Fin false 1036831949; Fin true 2139095039]; [Fin false 1; Fin true 0]]).
Proof. vm_compute. reflexivity. Qed.
(** An infinite value does not come back: it becomes the largest float. *)
Theorem C14_infinity_refuted :
  (do d <- ds_init 1 [[FInf false]; [FInf true]] [Fin false 0; Fin false 0] [7; 3];
   do f <- ds_dump F32 [0; 0] d; do d' <- ds_load F32 f; Ok (ds_X d'))
  = Ok [[Fin false 2139095039]; [FInf true]].
Proof. vm_compute. reflexivity. Qed.

Example C14_example :
  (do d <- ds_init 2 [[1; -20]; [0; 3]; [4; 5]] [2; 0; 1] [7; 7; 3];
   do f <- ds_dump ZF [0; 0; 0] d; do d' <- ds_load ZF f; Ok (f, d'))
  = Ok (unlines ["2 qid:7 1:1 2:-20 "; "0 qid:7 1:0 2:3 "; "1 qid:3 1:4 2:5 "]%string,
        mkDataset [[1; -20]; [0; 3]; [4; 5]] 2 [2; 0; 1] [7; 3] [0; 2; 3]%nat).
Proof. vm_compute. reflexivity. Qed.

(** The number of query ids is not compared with the number of rows. *)
Theorem C14_short_qids_refuted :
  dump_svmlight_file ZF false [[1]; [2]; [3]] [0; 0; 0] [5; 6] = Err MemFault.
Proof. vm_compute. reflexivity. Qed.

(** C15 *)
Theorem C15_malformed_line_rejected : forall (V : Type) (F : fmt V) f ls l,
  file_text f ls -> In l ls -> bad_line l -> exists e, load_svmlight_file F f = Err e.
Proof. exact (@C15_lemma). Qed.
Print Assumptions C15_malformed_line_rejected.

(** The line itself raises whatever was read before; *)
Theorem C15_bad_line : forall (V : Type) (F : fmt V) l (st : lstate),
  bad_line l -> parse_line F l st = Err RuntimeError.
Proof. exact (@C15_line_lemma). Qed.
Print Assumptions C15_bad_line.

(** after well-formed lines the exception of the whole load is that one. *)
Theorem C15_exact_exception : forall (V : Type) (F : fmt V) f a l b es ys,
  file_text f (a ++ l :: b) -> bad_line l -> entries a es ->
  ((exists e r, es = e :: r /\ en_pairs e <> []) \/ (forall e, In e es -> en_pairs e = [])) ->
  Forall2 (fun e y => rd_label F (en_label e) = Some y) es ys ->
  Z.of_nat (length es * cols_width es) < 2 ^ 31 ->
  load_svmlight_file F f = Err RuntimeError.
Proof. exact (@C15_exact_lemma). Qed.
Print Assumptions C15_exact_exception.

Theorem C15_comments_do_not_matter : forall (V : Type) (F : fmt V) f f' a c b,
  file_text f (a ++ c :: b) -> file_text f' (a ++ b) -> comment_line c ->
  load_svmlight_file F f = load_svmlight_file F f'.
Proof. exact (@C15_comment_lemma). Qed.
Print Assumptions C15_comments_do_not_matter.

Example C15_example_label : bad_line (lit " x 1:2").
Proof.
  apply (bad_label (lit " ") (lit "x 1:2") []).
  - chars.
  - intros H. cbn in H. repeat (destruct H as [H|H]; [discriminate|]). exact H.
  - intros sg neg r Hs E. destruct Hs; cbn [app lit list_ascii_of_string] in E; try discriminate.
    subst r. split; intros (c & r' & H & Hc); [|discriminate]. injection H as <- <-.
    cbn in Hc. repeat (destruct Hc as [Hc|Hc]; [discriminate|]). exact Hc.
  - intros c r E Hc. injection E as <- <-. cbn in Hc. repeat (destruct Hc as [Hc|Hc]; [discriminate|]). exact Hc.
  - left. reflexivity.
  - intros [c E]. discriminate.
Qed.
Example C15_example_exponent : bad_line (lit "2.5e- 1:2").
Proof.
  apply (bad_exponent [] [] false (lit "2") (lit ".") (lit "5") "e" (lit "-") true (lit " 1:2") []).
  - constructor.
  - constructor.
  - constructor; [cbn; tauto|constructor].
  - constructor; [cbn; tauto|constructor].
  - discriminate.
  - left. reflexivity.
  - cbn. tauto.
  - constructor.
  - intros H. cbn in H. intuition discriminate.
  - intros a r H. injection H as <- <-. split; [intros D; cbn in D; intuition discriminate|discriminate].
  - left. reflexivity.
Qed.
Example C15_example_second : bad_line (lit "1 # only a label").
Proof.
  apply (bad_second [] (lit "1") (Dec false 1 0) (lit " ") (lit "# only a label")).
  - constructor.
  - apply (numeral_intro [] false (lit "1") [] [] [] 0); [constructor|chars|chars|discriminate|auto|constructor].
  - chars.
  - right. eexists. reflexivity.
Qed.
Example C15_example_loads :
  map (fun l => load_svmlight_file QF (unlines ["1 qid:1 1:2"; l; "0 qid:1 1:1"]%string))
      [""; "x 1:2"; "1"; "1 # only a label"; "1 qid:2 3"; "1 qid:2 a:3"; "1 qid:2 3:a"; "1 3:1 qid:2"]%string
  = repeat (Err RuntimeError) 8.
Proof. vm_compute. reflexivity. Qed.

(** Not every odd line is rejected: text glued to a number is ignored, and a numeric
    prefix of the second token counts as the query id. *)
Theorem C15_trailing_text_refuted :
  exists l X, load_svmlight_file QF (unlines [l]) = Ok (3%nat, X, [1]%Q, [2]) /\
    X = [[0; 0; 3 # 2]]%Q /\ l = "1 qid:2x 3:1.5abc"%string.
Proof. exists "1 qid:2x 3:1.5abc"%string, [[0; 0; 3 # 2]]%Q. split; [|split]; vm_compute; reflexivity. Qed.

(** C63 *)
Theorem C63_files_are_loaded_separately : forall (V : Type) (F : fmt V) fs ps,
  load_svmlight_files F fs = Ok ps <->
  fs <> [] /\ Forall2 (fun f p => load_svmlight_file F f = Ok p) fs ps.
Proof. exact (@C63_lemma). Qed.
Print Assumptions C63_files_are_loaded_separately.

(** The documentation promises X_1 and X_2 with the same number of features. *)
Theorem C63_same_width_refuted :
  exists f g X X' y y' q q', load_svmlight_files QF [f; g] = Ok [(2%nat, X, y, q); (3%nat, X', y', q')].
Proof.
  exists (unlines ["1 1:5 2:6"]%string), (unlines ["1 3:5"]%string),
    [[5; 6]]%Q, [[0; 0; 5]]%Q, [1]%Q, [1]%Q, [], []. vm_compute. reflexivity.
Qed.
