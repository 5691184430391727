(** Feature importance. *)
From Coq Require Import List ZArith Bool Reals Permutation.
From Verif Require Import Base Num M_Dataset M_Ensemble S_Ensemble.
Import ListNotations.
Local Open Scope Z_scope.

Section Visits.
Context {N : Num.num}.
Variable rows : list (list N).

(** Does instance [i] go left when feature [f] is compared with [thr]? *)
Definition goes_left (f : Z) (thr : N) (i : Z) : bool := nleb (nth (Z.to_nat f) (nth (Z.to_nat i) rows []) nzero) thr.
Definition lefts f thr (M : list Z) : list Z := filter (goes_left f thr) M.
Definition rights f thr (M : list Z) : list Z := filter (fun i => negb (goes_left f thr i)) M.

(** The splits reached by the instances [M], with the instances sent left and right; below the
    first one, only those reached by two instances or more. *)
Fixpoint visited (t : tree Z N) (M : list Z) : list (Z * list Z * list Z) :=
  match t with
  | Leaf _ _ => []
  | Node _ f thr l r =>
      let L := lefts f thr M in let R := rights f thr M in
      (f, L, R) :: (if (2 <=? length L)%nat then visited l L else []) ++ (if (2 <=? length R)%nat then visited r R else [])
  end.

(** The split reached by the instances at the beginning of the array sends some instance left. *)
Fixpoint first_goes_left (first : bool) (t : tree Z N) (M : list Z) : Prop :=
  match t with
  | Leaf _ _ => True
  | Node _ f thr l r =>
      let L := lefts f thr M in let R := rights f thr M in
      (first = true -> L <> []) /\
      ((2 <= length L)%nat -> first_goes_left first l L) /\ ((2 <= length R)%nat -> first_goes_left false r R)
  end.

Definition is_split (t : tree Z N) : bool := match t with Leaf _ _ => false | Node _ _ _ _ _ => true end.
(** A tree visited without faults: the root is a split, the features exist, and the first
    segment always sends something left. *)
Definition visitable (nf : nat) (t : tree Z N) : Prop :=
  is_split t = true /\ Forall (fun f => 0 <= f < Z.of_nat nf) (splits t) /\ first_goes_left true t (zrange 0 (Z.of_nat (length rows))).
(** Data sets whose indices fit the C types. *)
Definition fits (nf : nat) : Prop :=
  rows <> [] /\ Forall (fun r => length r = nf) rows /\ Z.of_nat (length rows) < 2 ^ 31 /\ Z.of_nat (length rows) * Z.of_nat nf < 2 ^ 32.

(** Instances with the same exit leaf as [i]. *)
Definition leaf_mates (t : tree Z N) (i : Z) (M : list Z) : list Z :=
  filter (fun j => fst (exit_leaf (nth (Z.to_nat j) rows []) t) =? fst (exit_leaf (nth (Z.to_nat i) rows []) t)) M.
End Visits.

(** Number of visits of feature [f]. *)
Definition visits_of (f : Z) (v : list (Z * list Z * list Z)) : Z := Z.of_nat (length (filter (fun p => fst (fst p) =? f) v)).
(** Splits visited in a model, over all instances. *)
Definition all_visits {N : Num.num} (d : dataset N) (ts : list (tree Z N)) : Z :=
  fold_right Z.add 0 (map (fun t => Z.of_nat (length (visited (ds_X d) t (zrange 0 (Z.of_nat (length (ds_X d))))))) ts).

(** Real arithmetic: [y i] is the target of instance [i]. *)
Local Open Scope R_scope.
Definition mean (y : Z -> R) (M : list Z) : R := Rtotal (map y M) / INR (length M).
(** Sum of squared errors of a prediction; of the mean. *)
Definition sse (y p : Z -> R) (M : list Z) : R := Rtotal (map (fun i => (y i - p i) ^ 2) M).
Definition sse_mean (y : Z -> R) (M : list Z) : R := sse y (fun _ => mean y M) M.
(** Reduction of the squared error by a split. *)
Definition gain (y : Z -> R) (v : Z * list Z * list Z) : R :=
  sse_mean y (snd (fst v) ++ snd v) - sse_mean y (snd (fst v)) - sse_mean y (snd v).
Definition gains_of (y : Z -> R) (f : Z) (v : list (Z * list Z * list Z)) : R :=
  Rtotal (map (gain y) (filter (fun p => Z.eqb (fst (fst p)) f) v)).

(** Targets of the trees of a model: what is left after subtracting, tree after tree, the weighted
    mean of the leaf. *)
Fixpoint residuals (rows : list (list RE)) (all : list Z) (ws : list R) (ts : list (tree Z RE)) (y : Z -> R) : list (Z -> R) :=
  match ts, ws with
  | t :: ts', w :: ws' => y :: residuals rows all ws' ts' (fun i => y i - w * mean y (leaf_mates (N:=RE) rows t i all))
  | _, _ => []
  end.
(** Squared error of the mean, minus that of the means of the leaves. *)
Definition error_drop (d : dataset RE) (t : tree Z RE) (y : Z -> R) : R :=
  let all := zrange 0 (Z.of_nat (length (ds_X d))) in
  sse_mean y all - sse y (fun i => mean y (leaf_mates (ds_X d) t i all)) all.
