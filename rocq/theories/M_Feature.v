(** Model of rankeval/analysis/_efficient_feature_impl.cpp and .h, and of the MSE and RMSE
    branches of feature_importance in analysis/feature.py.

    The data set is the flat array of _efficient_feature.pyx 53-81.  The OpenMP reductions add
    in an unspecified order: [red] is any way of adding a list.  The iterations of the parallel
    loops touch different cells and are run in order.  Every float variable is rounded by [nf32]. *)
From Coq Require Import List ZArith Bool.
From Verif Require Import Base Num M_Dataset M_Ensemble M_Topology.
Import ListNotations.
Local Open Scope Z_scope.

Section Feature.
Context {N : num}.
Variable red : list N -> N.

(** The mutable arrays: split_instance, y_pred_tree, feature_imp, feature_count. *)
Record fstate : Type := mkF { f_si : list Z; f_yt : list N; f_imp : list N; f_cnt : list Z }.
(** _efficient_feature_impl.h 1-16: TreeNode. *)
Record qnode : Type := mkQ { q_id : Z; q_start : Z; q_end : Z }.

(** Line 110: the index in X, computed with unsigned int. *)
Definition x_index (nf inst f : Z) : Z := u32 (u32 (inst * nf) + f).

(** std::swap of two cells. *)
Definition swap (l : list Z) (i j : Z) : res (list Z) :=
  do a <- mem_get l i; do b <- mem_get l j; do l1 <- mem_set l i b; mem_set l1 j a.

(** Lines 107-118: the instances of the segment are split; split_instance, end_id and the two sums. *)
Fixpoint partition (fuel : nat) (X : list N) (nf f : Z) (thr : N) (yt : list N)
    (si : list Z) (start end_ : Z) (ml mr : N) : res (list Z * Z * N * N) :=
  if end_ <? start then Ok (si, end_, ml, mr)
  else match fuel with
  | O => Err Diverge
  | S fuel' =>
      do inst <- mem_get si start;
      do x <- mem_get X (x_index nf inst f);
      do v <- mem_get yt inst;
      if nleb x thr then partition fuel' X nf f thr yt si (start + 1) end_ (nf32 (nadd ml v)) mr
      else do si' <- swap si start end_;
           partition fuel' X nf f thr yt si' start (end_ - 1) ml (nf32 (nadd mr v))
  end.

(** Lines 131-146: the new predictions and the terms of delta_mse.  Line 137 compares an unsigned
    int with an int. *)
Definition sq_err (a b : N) : N := nf32 (npow (nf32 (nsub a b)) 2).
Fixpoint gain_loop (fuel : nat) (si : list Z) (yt : list N) (last end_ : Z) (ml mr : N) (i : Z) (yp : list N) (acc : list N)
    : res (list N * list N) :=
  if last <? i then Ok (yp, acc)
  else match fuel with
  | O => Err Diverge
  | S fuel' =>
      do inst <- mem_get si i;
      do v <- mem_get yt inst;
      do p <- mem_get yp inst;
      let new := if i <=? u32 end_ then ml else mr in
      do yp' <- mem_set yp inst new;
      gain_loop fuel' si yt last end_ ml mr (u32 (i + 1)) yp' (acc ++ [nf32 (nsub (sq_err v p) (sq_err v new))])
  end.

(** Lines 120-127: a mean, when there are documents. *)
Definition normalised (m : N) (docs : Z) : N := if 0 <? docs then nf32 (ndiv m (nofZ docs)) else m.

(** Lines 97-166: one node.  The new arrays and the nodes pushed, the last pushed first. *)
Definition visit (e : ensemble N) (X : list N) (nf n : Z) (yt : list N) (s : fstate) (q : qnode) : res (fstate * list qnode) :=
  do f <- mem_get (e_feature e) (q_id q);
  do thr <- mem_get (e_value e) (q_id q);
  do c <- mem_get (f_cnt s) f;
  do cnt <- mem_set (f_cnt s) f (wrap_u 16 (c + 1));
  do p <- partition (length (f_si s)) X nf f thr yt (f_si s) (i32 (q_start q)) (i32 (q_end q)) nzero nzero;
  let '(si, end_, suml, sumr) := p in
  let ml := normalised suml (i32 (u32 (end_ - q_start q + 1))) in
  let mr := normalised sumr (i32 (u32 (q_end q - end_))) in
  do g <- gain_loop (S (length si)) si yt (q_end q) end_ ml mr (q_start q) (f_yt s) [];
  do w <- mem_get (f_imp s) f;
  do imp <- mem_set (f_imp s) f (nf32 (nadd w (nf32 (ndiv (nf32 (red (snd g))) (nofZ n)))));
  do l <- mem_get (e_left e) (q_id q);
  do ll <- leaf_cell e l;
  let pl := if negb ll && (q_start q <? u32 end_) then [mkQ l (q_start q) (u32 end_)] else [] in
  do r <- mem_get (e_right e) (q_id q);
  do rl <- leaf_cell e r;
  let pr := if negb rl && (u32 (end_ + 1) <? q_end q) then [mkQ r (u32 (end_ + 1)) (q_end q)] else [] in
  Ok (mkF si (fst g) imp cnt, pr ++ pl).

(** Lines 92-167. *)
Fixpoint visit_all (fuel : nat) (e : ensemble N) (X : list N) (nf n : Z) (yt : list N) (s : fstate) (queue : list qnode) : res fstate :=
  match queue with
  | [] => Ok s
  | q :: rest =>
      match fuel with
      | O => Err Diverge
      | S fuel' => do r <- visit e X nf n yt s q; visit_all fuel' e X nf n yt (fst r) (snd r ++ rest)
      end
  end.

(** Lines 51-174: c_feature_importance_tree; the new feature_imp, feature_count, y_pred, y_pred_tree. *)
Definition importance_tree (e : ensemble N) (X : list N) (y : list N) (nf n : Z) (tree : Z) (imp : list N) (cnt : list Z) (yp : list N)
    : res (list N * list Z * list N * list N) :=
  do yt <- mapM (fun i => do a <- mem_get y i; do b <- mem_get yp i; Ok (nf32 (nsub a b))) (zrange 0 n);
  let mean := nf32 (ndiv (nf32 (red yt)) (nofZ n)) in
  do root <- mem_get (e_root e) tree;
  do s <- visit_all (S (length (e_left e))) e X nf n yt (mkF (zrange 0 n) (repeat mean (Z.to_nat n)) imp cnt) [mkQ root 0 (u32 (n - 1))];
  do w <- mem_get (e_weight e) tree;
  let ypt := map (fun v => nf32 (nmul v w)) (f_yt s) in
  do yp' <- mapM (fun i => do a <- mem_get yp i; do b <- mem_get ypt i; Ok (nf32 (nadd a b))) (zrange 0 n);
  Ok (f_imp s, f_cnt s, yp', ypt).

(** Lines 7-49: c_feature_importance; _efficient_feature.pyx 53-81: eff_feature_importance. *)
Definition eff_importance (e : ensemble N) (d : dataset N) : res (list N * list Z) :=
  let n := Z.of_nat (length (ds_X d)) in
  let nf := Z.of_nat (ds_nf d) in
  do s <- foldM (fun s t => let '(imp, cnt, yp) := s in
                            do r <- importance_tree e (concat (ds_X d)) (ds_y d) nf n t imp cnt yp;
                            let '(imp', cnt', yp', _) := r in Ok (imp', cnt', yp'))
                (zrange 0 (e_ntrees e)) (repeat nzero (ds_nf d), repeat 0 (ds_nf d), repeat nzero (length (ds_X d)));
  Ok (fst (fst s), snd (fst s)).

(** feature.py 61-90: feature_importance with MSE (rmse = false) or RMSE.  Line 67 takes the
    square root of the first importance only. *)
Definition feature_importance (e : ensemble N) (d : dataset N) (rmse normalize : bool) : res (list N * list Z) :=
  do r <- eff_importance e d;
  do imp <- (if rmse then do a <- py_get (fst r) 0; py_set (fst r) 0 (nf32 (nsqrt a)) else Ok (fst r));
  do imp' <- (if normalize then do m <- nmax imp; Ok (map (fun a => nf32 (ndiv a m)) imp) else Ok imp);
  Ok (imp', snd r).
End Feature.
