(** Which arrays objects own, and what it means for a client to respect them. *)
From Coq Require Import List ZArith Bool.
From Verif Require Import Base Num M_Dataset M_NDCG M_Ensemble S_Dataset M_Heap.
Import ListNotations.

Section Spec.
Context {N : num}.
Variable rowsum : list N -> N.
Variable digest : list (list N) -> list N -> list Z -> Z.
Implicit Types st : state N.

(** ** The arrays an object holds *)
Definition opt_list {A} (o : option A) : list A := match o with Some a => [a] | None => [] end.
Definition arrays_of_dataset (d : dobj) : list addr := [d_X d; d_y d; d_qids d; d_offs d].
Definition arrays_of_scorer (s : sobj) : list addr :=
  opt_list (s_y s) ++ opt_list (s_partial s) ++ opt_list (s_leaves s).
Definition arrays_of_model (m : mobj N) : list addr :=
  map v_at [o_root m; o_weight m; o_left m; o_right m; o_value m; o_feature m].
Definition arrays_of_answer (r : harray) : list addr :=
  match r with
  | HBasic y => opt_list y
  | HDetailed y p l => opt_list y ++ opt_list p ++ opt_list l
  end.

(** Objects point to arrays and objects that exist; the keys of a cache were hashed. *)
Definition in_memory st (l : list addr) : Prop := forall x, In x l -> x < length (mem st).
Definition cache_ok st (c : list (nat * Z * nat)) : Prop :=
  forall k z s, In (k, z, s) c ->
    k < length (dss st) /\ s < length (scs st) /\ d_hash (nth k (dss st) no_dobj) = Some z.
Definition valid st : Prop :=
  (forall d, In d (dss st) -> in_memory st (arrays_of_dataset d)) /\
  (forall s, In s (scs st) -> in_memory st (arrays_of_scorer s)) /\
  (forall m, In m (mos st) -> in_memory st (arrays_of_model m) /\ cache_ok st (o_cache m)).

(** The hash remembered by a data set is the one of its present contents. *)
Definition stable st : Prop :=
  forall d z, In d (dss st) -> d_hash d = Some z -> z = ds_hash digest (dataset_of (mem st) d).

(** Arrays a client had better not write into: those of a data set that was hashed (the
    comment of dataset.py 407 "the object is unmodifiable"), of a model, of a scorer that a
    model keeps in its cache. *)
Definition guarded st (x : addr) : Prop :=
  (exists d, In d (dss st) /\ d_hash d <> None /\ In x (arrays_of_dataset d)) \/
  (exists m, In m (mos st) /\ In x (arrays_of_model m)) \/
  (exists m k z s, In m (mos st) /\ In (k, z, s) (o_cache m) /\
                   In x (arrays_of_scorer (nth s (scs st) empty_sobj))).

(** The arguments of an action exist; an array written is not guarded. *)
Definition exists_for st (a : action N) : Prop :=
  match a with
  | NewArray _ | LoadModel _ _ _ => True
  | WriteArray x _ => x < length (mem st)
  | NewDataset _ X y ids => X < length (mem st) /\ y < length (mem st) /\ ids < length (mem st)
  | Subset d _ | SubsetFeatures d _ | Split d _ _ _ | KFold d _ _ => d < length (dss st)
  | Score m d _ _ => m < length (mos st) /\ d < length (dss st)
  | Clear m | Copy m _ => m < length (mos st)
  end.
Definition allowed st (a : action N) : Prop :=
  exists_for st a /\ match a with WriteArray x _ => ~ guarded st x | _ => True end.
Fixpoint careful st (p : list (action N)) : Prop :=
  match p with
  | [] => True
  | a :: p' => allowed st a /\ careful (step rowsum digest st a) p'
  end.

(** The calls of [score] and [clear_cache] on model [m] in a program, with the contents that
    the data sets had at the time. *)
Fixpoint calls st (p : list (action N)) (m : nat) : list (scall (N:=N)) :=
  match p with
  | [] => []
  | a :: p' =>
      (match a with
       | Score m' d detailed cache =>
           if Nat.eqb m' m then [CallScore (d, dataset_at st d) detailed cache] else []
       | Clear m' => if Nat.eqb m' m then [CallClear] else []
       | _ => []
       end) ++ calls (step rowsum digest st a) p' m
  end.

(** The model object [m], as a value. *)
Definition model_at st (m : nat) : model N := model_of st (mobj_at st m).

(** What the client reads in an answer right after the call. *)
Definition answer_at (r : state N * res harray) : res (answer (N:=N)) :=
  match snd r with Ok a => Ok (seen (mem (fst r)) a) | Err e => Err e end.

(** The client writes; the library makes a part of a data set. *)
Definition is_write (a : action N) : Prop := match a with WriteArray _ _ => True | _ => False end.
Definition makes_parts (a : action N) : Prop :=
  match a with Subset _ _ | Split _ _ _ _ | KFold _ _ _ => True | _ => False end.

(** The arrays a model depends on, its cache included. *)
Definition model_reach st (m : nat) (x : addr) : Prop :=
  In x (arrays_of_model (mobj_at st m)) \/
  exists k z s, In (k, z, s) (o_cache (mobj_at st m)) /\
    (In x (arrays_of_dataset (nth k (dss st) no_dobj)) \/ In x (arrays_of_scorer (nth s (scs st) empty_sobj))).

(** A cache entry without the identity of its key. *)
Definition contents (e : obj (N:=N) * scorer N) : dataset N * scorer N := (snd (fst e), snd e).

(** The data sets that [st'] has and [st] had not. *)
Definition new_datasets st st' : list (dataset N) :=
  map (dataset_at st') (seq (length (dss st)) (length (dss st') - length (dss st))).

(** Hashes that collide come from data sets of the same shape. *)
Definition shapes_told (os : list (obj (N:=N))) : Prop :=
  forall k k', In k os -> In k' os ->
    ds_hash digest (snd k) = ds_hash digest (snd k') -> same_shape (snd k) (snd k').

(** Programs that only write. *)
Definition writes (w : list (addr * buffer N)) : list (action N) :=
  map (fun p => WriteArray (fst p) (snd p)) w.
End Spec.
