(** Feature importance with an arbitrary metric. *)
From Coq Require Import List ZArith Bool.
From Verif Require Import Base Num M_Dataset M_Ensemble S_Ensemble S_Feature.
Import ListNotations.
Local Open Scope Z_scope.

Section Levels.
Context {N : Num.num}.
Variable sum : list N -> N.
Variable rows : list (list N).
Notation all := (zrange 0 (Z.of_nat (length rows))).

(** The splits at depth [k], from left to right: feature, instances sent left and right. *)
Fixpoint splits_at (k : nat) (t : tree Z N) (M : list Z) : list (Z * list Z * list Z) :=
  match t, k with
  | Leaf _ _, _ => []
  | Node _ f thr _ _, O => [(f, lefts rows f thr M, rights rows f thr M)]
  | Node _ f thr l r, S k' => splits_at k' l (lefts rows f thr M) ++ splits_at k' r (rights rows f thr M)
  end.

(** The instances that are with [i] after [k] levels. *)
Fixpoint group (k : nat) (t : tree Z N) (M : list Z) (i : Z) : list Z :=
  match t, k with
  | Node _ f thr l r, S k' => if goes_left rows f thr i then group k' l (lefts rows f thr M) i else group k' r (rights rows f thr M) i
  | _, _ => M
  end.

Definition average (y : Z -> N) (M : list Z) : N := ndiv (sum (map y M)) (nofnat (length M)).
(** Prediction of the first [k] levels: the mean of the group. *)
Definition predicted (t : tree Z N) (y : Z -> N) (k : nat) (i : Z) : N :=
  match k with O => average y all | _ => nf32 (average y (group k t all i)) end.
(** The same after one more split, whose instances get the means of the two sides. *)
Definition refined (t : tree Z N) (y : Z -> N) (k : nat) (v : Z * list Z * list Z) (i : Z) : N :=
  if existsb (Z.eqb i) (snd (fst v)) then nf32 (average y (snd (fst v)))
  else if existsb (Z.eqb i) (snd v) then nf32 (average y (snd v))
  else nf32 (predicted t y k i).

(** [value] is the metric as a function of the scores, [p] what the earlier trees predict. *)
Variable value : list N -> N.
Definition change (t : tree Z N) (y p : Z -> N) (k : nat) (v : Z * list Z * list Z) : N :=
  nsub (value (map (fun i => nadd (nf32 (predicted t y k i)) (p i)) all)) (value (map (fun i => nadd (refined t y k v i) (p i)) all)).
(** Level by level: the features and the changes. *)
Definition changes (t : tree Z N) (y p : Z -> N) : list (Z * N) :=
  concat (map (fun k => map (fun v => (fst (fst v), change t y p k v)) (splits_at k t all)) (seq 0 (height t))).

(** All the trees: the predictions are added up, and the targets are what is left of the labels. *)
Fixpoint all_changes (labels : Z -> N) (ws : list N) (ts : list (tree Z N)) (p : Z -> N) : list (Z * N) :=
  match ts, ws with
  | t :: ts', w :: ws' =>
      let y := fun i => nsub (labels i) (p i) in
      changes t y p ++ all_changes labels ws' ts' (fun i => nadd (p i) (nmul (predicted t y (height t) i) w))
  | _, _ => []
  end.
End Levels.

(** Sum of the changes of feature [f], rounded after each addition. *)
Definition credited {N : Num.num} (f : Z) (l : list (Z * N)) : N :=
  fold_left (fun a v => nf32 (nadd a v)) (map snd (filter (fun p => fst p =? f) l)) nzero.
(** Number of splits on feature [f]. *)
Definition uses {N : Num.num} (f : Z) (ts : list (tree Z N)) : Z := Z.of_nat (length (filter (Z.eqb f) (concat (map splits ts)))).
(** A comparison is either at most or greater. *)
Definition decides (N : Num.num) : Prop := forall a b : N, nltb a b = negb (nleb b a).
