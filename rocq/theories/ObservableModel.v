(** Observable sums with delta temporality
    (opentelemetry-sdk/src/metrics/internal/precomputed_sum.rs:38-87) and the
    collection intervals (opentelemetry-sdk/src/metrics/internal/aggregate.rs:63-83). *)
From Coq Require Import List Bool Arith NArith ZArith.
Import ListNotations.

Section observable.
Context {K T : Type}.
Variable keq : forall x y : K, {x = y} + {x <> y}.
Variable sub : T -> T -> T.
Variable zero : T.
(** [HashMap<Vec<KeyValue>, T>]: keys are attribute lists compared as lists. *)
Fixpoint get (k : K) (m : list (K * T)) : option T :=
  match m with
  | [] => None
  | (k', v) :: m => if keq k' k then Some v else get k m
  end.
Definition put (k : K) (v : T) (m : list (K * T)) : list (K * T) :=
  (k, v) :: filter (fun e => if keq (fst e) k then false else true) m.
(** [delta] (precomputed_sum.rs:68-87), for the points [(attributes, value)] that
    [collect_and_reset] yields: each is reported minus what was reported for the
    same key in the previous collection; the table is replaced. *)
Definition report (reported : list (K * T)) (kv : K * T) : K * T :=
  (fst kv, sub (snd kv) (match get (fst kv) reported with Some v => v | None => zero end)).
Definition pre_delta (reported : list (K * T)) (pts : list (K * T)) : list (K * T) * list (K * T) :=
  (map (report reported) pts, fold_left (fun m kv => put (fst kv) (snd kv) m) pts []).
(** Successive collections. *)
Fixpoint pre_run (reported : list (K * T)) (cycles : list (list (K * T))) : list (list (K * T)) :=
  match cycles with
  | [] => []
  | pts :: cycles => let '(out, reported') := pre_delta reported pts in out :: pre_run reported' cycles
  end.
End observable.

(** [AggregateTimeInitiator] (aggregate.rs:63-90).  The mutex is never poisoned:
    nothing under it can panic.  The pipeline's lock makes collections of one
    stream sequential (pipeline.rs:103-106). *)
Definition interval : Type := (Z * Z)%type.
Inductive temporality := Delta | Cumulative.
Definition aggregate_time (t : temporality) (start now : Z) : interval * Z :=
  match t with
  | Delta => ((start, now), now)
  | Cumulative => ((start, now), start)
  end.
Fixpoint intervals (t : temporality) (start : Z) (clock : list Z) : list interval :=
  match clock with
  | [] => []
  | now :: clock => let '(i, start') := aggregate_time t start now in i :: intervals t start' clock
  end.
