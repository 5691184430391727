(** Model of the loaders that read text: rankeval/model/proxy_LightGBM.py,
    proxy_XGBoost.py and proxy_ScikitLearn.py (with its exporter).

    A file is its characters after universal newline translation (no \r).  Each regular
    expression is replaced by a function that returns what its groups match. *)
From Coq Require Import Ascii String List ZArith Bool.
From Verif Require Import Base Num M_Text M_Dataset M_Ensemble M_Loaders.
Import ListNotations.
Local Open Scope Z_scope.

(** ** Regular expressions *)

(** The key at the start of the line, then anything: the rest of the line (a dot does not
    match the newline). *)
Definition key_match (key : string) (line : text) : option text :=
  match strip (lit key) line with Some r => Some (before newline r) | None => None end.
(** The key at the start of the line, then digits. *)
Definition key_number (key : string) (line : text) : option Z :=
  match strip (lit key) line with
  | Some r => let ds := fst (span is_digit r) in if is_nil ds then None else Some (digits_val ds)
  | None => None
  end.
(** booster[digits] at the start of the line. *)
Definition booster_match (line : text) : option Z :=
  match strip (lit "booster[") line with
  | Some r =>
      let '(ds, r1) := span is_digit r in
      if is_nil ds then None
      else match r1 with "]"%char :: _ => Some (digits_val ds) | _ => None end
  | None => None
  end.

(** [re.search]: leftmost match. *)
Fixpoint search {A} (m : text -> option A) (l : text) : option A :=
  match m l with
  | Some a => Some a
  | None => match l with [] => None | _ :: r => search m r end
  end.

(** Greedy: everything up to the last closing bracket. *)
Fixpoint upto_last (c : ascii) (l : text) : option text :=
  match l with
  | [] => None
  | x :: r => match upto_last c r with
              | Some p => Some (x :: p)
              | None => if Ascii.eqb x c then Some [] else None
              end
  end.

(** digits:[f digits op anything] at a position: node number, feature, threshold. *)
Definition node_at (op : string) (l : text) : option (Z * Z * text) :=
  let '(ds, r) := span is_digit l in
  if is_nil ds then None else
  match strip (lit ":[f") r with
  | None => None
  | Some r1 =>
      let '(fs, r2) := span is_digit r1 in
      if is_nil fs then None else
      match strip (lit op) r2 with
      | None => None
      | Some r3 => match upto_last "]" (before newline r3) with
                   | Some thr => Some (digits_val ds, digits_val fs, thr)
                   | None => None
                   end
      end
  end.
(** digits:leaf= and at least one character: node number and the rest of the line. *)
Definition leaf_at (l : text) : option (Z * text) :=
  let '(ds, r) := span is_digit l in
  if is_nil ds then None else
  match strip (lit ":leaf=") r with
  | None => None
  | Some r1 => match before newline r1 with [] => None | c :: r2 => Some (digits_val ds, c :: r2) end
  end.
(** XGBoost (lazy group, then optionally a comma and anything): up to the first comma
    after the first character. *)
Definition until_comma (t : text) : text :=
  match t with [] => [] | c :: r => c :: before "," r end.

Section TextLoaders.
Context {N : num}.
Variable rd : text -> option N.

(** ** LightGBM *)

(** proxy_LightGBM.py 205-223: _count_nodes. *)
Definition lgbm_count (ls : list text) : Z * Z :=
  fold_left (fun c l =>
      match key_number "num_leaves=" l with
      | Some n => (fst c, snd c + n)
      | None => match key_match "split_feature=" l with
                | Some t => (fst c, snd c + Z.of_nat (length (words t)))
                | None => match key_number "Tree=" l with
                          | Some _ => (fst c + 1, snd c)
                          | None => c
                          end
                end
      end) ls (0, 0).

(** Lines 75-76 and the variable split_features (unset until the first such line). *)
Record gstate : Type := mkG {
  g_ens : ensemble N; g_tree : Z; g_root : Z; g_leaves : Z; g_splits : Z; g_features : option Z
}.

(** Lines 78-165: one line. *)
Definition lgbm_step (s : gstate) (l : text) : res gstate :=
  let e := g_ens s in
  let root := g_root s in
  match key_number "Tree=" l with
  | Some t =>
      let root' := root + (g_leaves s + g_splits s) in
      do e1 <- set_root e t root';
      Ok (mkG e1 t root' (g_leaves s) (g_splits s) (g_features s))
  | None =>
  match key_match "split_feature=" l with
  | Some t =>
      do fs <- mapM py_int (words t);
      do e1 <- fill set_feature root fs e;
      let n := Z.of_nat (length fs) in
      Ok (mkG e1 (g_tree s) root (g_leaves s) n (Some n))
  | None =>
  match key_match "threshold=" l with
  | Some t =>
      do vs <- mapM (read_cell rd) (words t);
      do e1 <- fill set_value root vs e;
      Ok (mkG e1 (g_tree s) root (g_leaves s) (g_splits s) (g_features s))
  | None =>
  match key_match "left_child=" l with
  | Some t =>
      do cs <- mapM py_int (words t);
      do e1 <- fill set_left root (map (child_ref root (g_splits s)) cs) e;
      Ok (mkG e1 (g_tree s) root (g_leaves s) (g_splits s) (g_features s))
  | None =>
  match key_match "right_child=" l with
  | Some t =>
      do cs <- mapM py_int (words t);
      do e1 <- fill set_right root (map (child_ref root (g_splits s)) cs) e;
      Ok (mkG e1 (g_tree s) root (g_leaves s) (g_splits s) (g_features s))
  | None =>
  match key_match "shrinkage=" l with
  | Some _ =>
      do e1 <- set_weight e (g_tree s) none;
      Ok (mkG e1 (g_tree s) root (g_leaves s) (g_splits s) (g_features s))
  | None =>
  match key_match "leaf_value=" l with
  | Some t =>
      do vs <- mapM (read_cell rd) (words t);
      do e1 <- fill set_value (root + g_splits s) vs e;
      do n <- of_option UnboundLocalError (g_features s);
      Ok (mkG e1 (g_tree s) root (Z.of_nat (length vs)) n (g_features s))
  | None =>
  match key_match "decision_type=" l with
  | Some t =>
      do ds <- mapM py_int (words t);
      if forallb (fun d => d =? 2) ds then Ok s else Err AssertionError
  | None =>
  match key_match "default_value=" l with
  | Some t =>
      do vs <- mapM (fun w => of_option ValueError (rd w)) (words t);
      if forallb (fun v => neqb v nzero) vs then Ok s else Err AssertionError
  | None =>
  match key_match "has_categorical=" l with
  | Some t => do c <- py_int t; if c =? 0 then Ok s else Err AssertionError
  | None => Ok s
  end end end end end end end end end end.

(** Lines 58-165: load. *)
Definition lgbm_load (file : text) : res (ensemble N) :=
  let ls := file_lines file in
  let '(nt, nn) := lgbm_count ls in
  do e <- initialize nt nn;
  do s <- foldM lgbm_step ls (mkG e 0 0 0 0 None);
  Ok (g_ens s).

(** ** XGBoost and scikit-learn *)

(** What a line holds: the two searches (a line may satisfy both). *)
Definition xgb_node (l : text) : option (Z * Z * text) := search (node_at "<") l.
Definition xgb_leaf (l : text) : option (Z * text) :=
  match search leaf_at l with Some (i, t) => Some (i, until_comma t) | None => None end.
Definition sk_node (l : text) : option (Z * Z * text) := search (node_at "<=") l.
Definition sk_leaf (l : text) : option (Z * text) := search leaf_at l.

(** proxy_XGBoost.py 160-179, proxy_ScikitLearn.py 153-172: _count_nodes. *)
Definition dump_count (node : text -> option (Z * Z * text)) (leaf : text -> option (Z * text)) (ls : list text) : Z * Z :=
  fold_left (fun c l =>
      match booster_match l with
      | Some _ => (fst c + 1, snd c)
      | None => (fst c, snd c + (match node l with Some _ => 1 | None => 0 end)
                              + (match leaf l with Some _ => 1 | None => 0 end))
      end) ls (0, 0).

Inductive side : Type := L | R.
(** root_node, num_nodes, queue (last element first); the scores of the model. *)
Record dstate : Type := mkD {
  d_ens : ensemble N; d_root : Z; d_num : Z; d_queue : list (Z * side);
  d_base : option N; d_lr : option N
}.

(** The loop shared by the two loaders (proxy_XGBoost.py 77-121, proxy_ScikitLearn.py
    76-114).  [number root num i] is the index given to the node written as [i];
    [thr] converts the text of a threshold. *)
Section Dump.
Variable node : text -> option (Z * Z * text).
Variable leaf : text -> option (Z * text).
Variable number : Z -> Z -> Z -> Z.
Variable thr : text -> res N.

Definition dump_line (s : dstate) (l : text) : res dstate :=
  match booster_match l with
  | Some t =>
      match d_queue s with
      | _ :: _ => Err AssertionError
      | [] =>
          let root := d_root s + d_num s in
          do e1 <- set_root (d_ens s) t root;
          do e2 <- set_weight e1 t none;
          Ok (mkD e2 root 0 [] (d_base s) (d_lr s))
      end
  | None =>
      let mn := node l in
      let ml := leaf l in
      do s1 <- match mn with
               | Some (i, f, t) =>
                   let id := number (d_root s) (d_num s) i in
                   do v <- thr (py_strip t);
                   do e1 <- set_feature (d_ens s) id f;
                   do e2 <- set_value e1 id v;
                   Ok (e2, Some id)
               | None => Ok (d_ens s, None)
               end;
      do s2 <- match ml with
               | Some (i, t) =>
                   let id := number (d_root s) (d_num s) i in
                   do v <- read_cell rd (py_strip t);
                   do e1 <- set_value (fst s1) id v;
                   Ok (e1, Some id)
               | None => Ok s1
               end;
      match snd s2 with
      | None => Ok (mkD (fst s2) (d_root s) (d_num s) (d_queue s) (d_base s) (d_lr s))
      | Some id =>
          do eq <- match d_queue s with
                   | [] => Ok (fst s2, [])
                   | (p, c) :: q =>
                       do e1 <- match c with L => set_left (fst s2) p id | R => set_right (fst s2) p id end;
                       Ok (e1, q)
                   end;
          Ok (mkD (fst eq) (d_root s) (d_num s + 1)
                  (match mn with Some _ => (id, L) :: (id, R) :: snd eq | None => snd eq end)
                  (d_base s) (d_lr s))
      end
  end.
End Dump.

(** proxy_XGBoost.py 91-97: the threshold in float32, lowered: [lower t] is
    nextafter(t, t - 1). *)
Variable lower : N -> N.
Definition xgb_thr (t : text) : res N := do v <- read_cell rd t; Ok (lower v).
Definition xgb_step : dstate -> text -> res dstate :=
  dump_line xgb_node xgb_leaf (fun root num _ => num + root) xgb_thr.

(** proxy_XGBoost.py 54-121: load. *)
Definition xgb_load (file : text) : res (ensemble N) :=
  let ls := file_lines file in
  let '(nt, nn) := dump_count xgb_node xgb_leaf ls in
  do e <- initialize nt nn;
  do s <- foldM xgb_step ls (mkD e 0 0 [] None None);
  Ok (d_ens s).

(** proxy_ScikitLearn.py 64-114: one line; the two keys need at least one character. *)
Definition sk_step (s : dstate) (l : text) : res dstate :=
  match key_match "base_score=" l with
  | Some (c :: r) =>
      do v <- of_option ValueError (rd (c :: r));
      Ok (mkD (d_ens s) (d_root s) (d_num s) (d_queue s) (Some v) (d_lr s))
  | _ =>
  match key_match "learning_rate=" l with
  | Some (c :: r) =>
      do v <- of_option ValueError (rd (c :: r));
      Ok (mkD (d_ens s) (d_root s) (d_num s) (d_queue s) (d_base s) (Some v))
  | _ => dump_line sk_node sk_leaf (fun root _ i => i + root) (read_cell rd) s l
  end
  end.

(** proxy_ScikitLearn.py 42-114: load: the arrays, base_score and learning_rate (if set). *)
Definition sk_load (file : text) : res (ensemble N * option N * option N) :=
  let ls := file_lines file in
  let '(nt, nn) := dump_count sk_node sk_leaf ls in
  do e <- initialize nt nn;
  do s <- foldM sk_step ls (mkD e 0 0 [] None None);
  Ok (d_ens s, d_base s, d_lr s).
End TextLoaders.

(** ** proxy_ScikitLearn.py 174-225: export_scikit_model

    A fitted tree is a list of its nodes as seen through the arrays children_left,
    children_right, feature, threshold, value of scikit-learn; -2 marks a leaf
    (TREE_UNDEFINED).  [fixed] prints %f, [str] prints the value of a leaf (one output). *)
Section Export.
Context {V : Type}.
Variable fixed : V -> text.
Variable str : V -> text.
Record sktree : Type := mkSk {
  sk_left : list Z; sk_right : list Z; sk_feature : list Z; sk_threshold : list V; sk_value : list V
}.
Definition tabs (n : nat) : text := repeat (ascii_of_nat 9) n.

(** Lines 209-225: recurse. *)
Fixpoint sk_recurse (fuel : nat) (t : sktree) (i : Z) (depth : nat) : res text :=
  match fuel with
  | O => Err Diverge
  | S f =>
      do feat <- py_get (sk_feature t) i;
      if negb (feat =? -2) then
        do thr <- py_get (sk_threshold t) i;
        do l <- py_get (sk_left t) i;
        do a <- sk_recurse f t l (S depth);
        do r <- py_get (sk_right t) i;
        do b <- sk_recurse f t r (S depth);
        Ok (tabs depth ++ show_Z i ++ lit ":[f" ++ show_Z feat ++ lit "<=" ++ fixed thr ++ lit "]" ++ [newline] ++ a ++ b)
      else
        do v <- py_get (sk_value t) i;
        Ok (tabs depth ++ show_Z i ++ lit ":leaf=" ++ str v ++ [newline])
  end.

(** np.unique. *)
Fixpoint dedup (l : list Z) : list Z :=
  match l with
  | [] => []
  | x :: r => if existsb (Z.eqb x) r then dedup r else x :: dedup r
  end.
Definition unique (l : list Z) : list Z := isort Z.leb (dedup l).
Fixpoint join_blank (l : list text) : text :=
  match l with [] => [] | [x] => x | x :: r => x ++ lit " " ++ join_blank r end.

(** Lines 197-225: _export_tree. *)
Definition sk_export_tree (t : sktree) (k : Z) : res text :=
  do b <- sk_recurse (S (length (sk_feature t))) t 0 1;
  Ok (lit "booster[" ++ show_Z k ++ lit "] [" ++
      join_blank (map (fun f => "f"%char :: show_Z f) (filter (fun f => negb (f =? -2)) (unique (sk_feature t)))) ++
      lit "]:" ++ [newline] ++ b).

(** Lines 189-195. *)
Definition sk_export (base lr : V) (ts : list sktree) : res text :=
  do bs <- mapM (fun p => sk_export_tree (snd p) (fst p)) (combine (zrange 0 (Z.of_nat (length ts))) ts);
  Ok (lit "base_score=" ++ fixed base ++ [newline] ++ lit "learning_rate=" ++ fixed lr ++ [newline] ++ concat bs).
End Export.
