(** The bar plot of the important features. *)
From Coq Require Import Ascii String List ZArith QArith Bool Permutation.
From Verif Require Import Base M_Text M_PlotFeature.
Import ListNotations.

(** [idx] puts the values of [l] in ascending order. *)
Definition ascending {A} (le : A -> A -> Prop) (d : A) (l : list A) (idx : list nat) : Prop :=
  Permutation idx (seq 0 (length l)) /\
  forall i j a b, (i < j)%nat -> nth_error idx i = Some a -> nth_error idx j = Some b -> le (nth a l d) (nth b l d).
(** [shown] lists the first features, from the largest value; no other has a larger one. *)
Definition largest {A} (le : A -> A -> Prop) (d : A) (l : list A) (shown : list nat) : Prop :=
  NoDup shown /\ (forall f, In f shown -> (f < length l)%nat) /\
  (forall i j a b, (i < j)%nat -> nth_error shown i = Some a -> nth_error shown j = Some b -> le (nth b l d) (nth a l d)) /\
  (forall f g, In f shown -> (g < length l)%nat -> ~ In g shown -> le (nth g l d) (nth f l d)).

(** The number of features asked for, when there are as many. *)
Definition chosen (importance : list Q) (max_features : option Z) (k : nat) : Prop :=
  match max_features with Some m => m = Z.of_nat k | None => k = length importance end /\ (1 <= k <= length importance)%nat.
(** The label of a feature: its name, or its number counted from 1. *)
Definition label_of (names : option (list text)) (f : nat) : text := match names with Some l => pad16 (nth f l []) | None => show_Z (Z.of_nat f + 1) end.
(** The picture has one pair of bars for each of the features [shown], from left to right: the
    heights are the importance and the count, the bars touch and do not overlap with others, lie in
    the picture, and the tick with the label of the feature stands below them. *)
Definition drawn (importance : list Q) (count : list Z) (names : option (list text)) (pic : picture) (shown : list nat) : Prop :=
  length (p_importance pic) = length shown /\ length (p_count pic) = length shown /\ length (p_ticks pic) = length shown /\ length (p_labels pic) = length shown /\
  (forall i f, nth_error shown i = Some f -> exists b c t, nth_error (p_importance pic) i = Some b /\ nth_error (p_count pic) i = Some c /\ nth_error (p_ticks pic) i = Some t /\
     nth_error (p_labels pic) i = Some (label_of names f) /\ b_height b = nth f importance 0%Q /\ b_height c = inject_Z (nth f count 0%Z) /\
     (p_left pic < b_left b)%Q /\ (b_left b < b_right b)%Q /\ (b_right b == b_left c)%Q /\ (b_left c < b_right c)%Q /\ (b_right c < p_right pic)%Q /\
     (b_left b < t)%Q /\ (t < b_right c)%Q /\
     (forall j b', (i < j)%nat -> nth_error (p_importance pic) j = Some b' -> (b_right c < b_left b')%Q)) /\
  (forall f, In f shown -> (nth f importance 0 <= 10 * p_step pic)%Q) /\ (exists f, In f shown /\ (10 * p_step pic < nth f importance 0 + (1 # 10))%Q).
