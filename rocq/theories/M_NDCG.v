(** Model of rankeval/metrics/ndcg.py as a stateful object.

    A data set object is a pair (identity, content): Python dicts compare keys by
    hash, then by identity or __eq__.  Objects are not mutated between calls.
    [digest] is the digest behind Dataset.__hash__ (M_Dataset.ds_hash). *)
From Coq Require Import List ZArith Bool.
From Verif Require Import Base Num M_Dataset M_Metrics.
Import ListNotations.

Section NDCG.
Context {N : num}.
Variable argsort : list N -> list nat.
Variable digest : list (list N) -> list N -> list Z -> Z.
Variables (norel : N) (g : gain_kind) (cutoff : option Z).

Definition obj : Type := (nat * dataset N)%type.

(** ndcg.py 55-57: the attributes.  A cache value [None] is the [int()] that
    defaultdict stores when a missing key is read. *)
Record nstate : Type := mkNstate {
  st_current : option obj;
  st_rel_qid : option nat;
  st_cache : list (obj * option (list N))
}.

(** ndcg.py 55-57. *)
Definition ndcg_init : nstate := mkNstate None None [].

(** Key comparison of a dict: stored key [k], looked up key [o]. *)
Definition key_eq (k o : obj) : res bool :=
  if negb (ds_hash digest (snd k) =? ds_hash digest (snd o))%Z then Ok false
  else if Nat.eqb (fst k) (fst o) then Ok true
  else ds_eq neqb (snd k) (snd o).

Fixpoint cache_find (c : list (obj * option (list N))) (o : obj) : res (option (option (list N))) :=
  match c with
  | [] => Ok None
  | (k, v) :: c' => do b <- key_eq k o; if b then Ok (Some v) else cache_find c' o
  end.

(** ndcg.py 90-93: ideal DCG of each query, stored as float32. *)
Definition idcg_scores (d : dataset N) : res (list N) :=
  foldM (fun acc t =>
           do x <- dcg argsort g cutoff (fst (snd (snd t))) (fst (snd (snd t)));
           py_set acc (Z.of_nat (fst t)) (nf32 x))
        (combine (seq 0 (length (metric_queries d (ds_y d)))) (metric_queries d (ds_y d)))
        (repeat nzero (n_queries d)).

(** ndcg.py 99-135: eval_per_query; returns the new state and the outcome. *)
Definition ndcg_per_query (st : nstate) (y s : list N) : nstate * res N :=
  match dcg argsort g cutoff y s with
  | Err e => (st, Err e)
  | Ok dcg_score =>
      match st_rel_qid st with
      | None => (st, do i <- dcg argsort g cutoff y y; Ok (ndcg_of norel dcg_score i))
      | Some r =>
          match st_current st with
          | None => (st, Err KeyError) (* unreachable: both are set together *)
          | Some o =>
              match cache_find (st_cache st) o with
              | Err e => (st, Err e)
              | Ok None => (mkNstate (st_current st) (st_rel_qid st) (st_cache st ++ [(o, None)]), Err TypeError)
              | Ok (Some None) => (st, Err TypeError)
              | Ok (Some (Some v)) =>
                  match py_get v (Z.of_nat r) with
                  | Err e => (st, Err e)
                  | Ok i => (mkNstate (st_current st) (Some (S r)) (st_cache st),
                             Ok (ndcg_of norel dcg_score i))
                  end
              end
          end
      end
  end.

(** metric.py 65-68 with the state threaded through eval_per_query. *)
Fixpoint ndcg_loop (st : nstate) (ts : list (nat * (Z * (list N * list N)))) (acc : list N)
  : nstate * res (list N) :=
  match ts with
  | [] => (st, Ok acc)
  | t :: ts' =>
      let '(st', r) := ndcg_per_query st (fst (snd (snd t))) (snd (snd (snd t))) in
      match (do x <- r; py_set acc (Z.of_nat (fst t)) (nf32 x)) with
      | Err e => (st', Err e)
      | Ok acc' => ndcg_loop st' ts' acc'
      end
  end.

(** metric.py 65-70, called at ndcg.py 97. *)
Definition ndcg_super_eval (st : nstate) (d : dataset N) (s : list N) : nstate * res (N * list N) :=
  let '(st', r) := ndcg_loop st (combine (seq 0 (length (metric_queries d s))) (metric_queries d s))
                            (repeat nzero (n_queries d)) in
  (st', do v <- r; Ok (nanmean v, v)).

(** ndcg.py 59-97: eval. *)
Definition ndcg_eval (st : nstate) (o : obj) (s : list N) : nstate * res (N * list N) :=
  let st1 := mkNstate (Some o) (Some 0%nat) (st_cache st) in
  match cache_find (st_cache st1) o with
  | Err e => (st1, Err e)
  | Ok (Some _) => ndcg_super_eval st1 (snd o) s
  | Ok None =>
      match idcg_scores (snd o) with
      | Err e => (st1, Err e)
      | Ok v => ndcg_super_eval (mkNstate (Some o) (Some 0%nat) (st_cache st1 ++ [(o, Some v)])) (snd o) s
      end
  end.

(** A history of calls on one NDCG object. *)
Inductive call : Type :=
| CallEval (o : obj) (s : list N)
| CallPerQuery (y s : list N).

Definition step (st : nstate) (c : call) : nstate :=
  match c with
  | CallEval o s => fst (ndcg_eval st o s)
  | CallPerQuery y s => fst (ndcg_per_query st y s)
  end.

Definition after (h : list call) : nstate := fold_left step h ndcg_init.
End NDCG.
