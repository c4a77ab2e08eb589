(** The in-memory exporters: opentelemetry-sdk/src/trace/in_memory_exporter.rs,
    logs/in_memory_exporter.rs, metrics/in_memory_exporter.rs. *)
From Coq Require Import List NArith ZArith Bool.
From Verif Require Import Str F64 TraceModel SpanModel LogModel AttrModel KvModel OtlpModel.
Import ListNotations.

Section store.
(** Items of type [A] (spans, logs with their scope, ResourceMetrics), resources of type [R]. *)
Context {A R : Type}.
(** What the clones of an exporter share (Arc): the items, the resource, and for logs
    shutdown_called. *)
Record mem := mk_mem { m_items : list A; m_resource : R; m_down : bool }.
(** Calls on any clone, each of which is one critical section of the mutex, so a list of
    calls is what any threads do.  [KGet] is get_finished_spans (trace:107-114),
    get_emitted_logs (logs:159-172; the resource is read under the lock on the logs) or
    get_finished_metrics (metrics:149-156). *)
Inductive mcall := KExport (batch : list A) | KReset | KShutdown | KSetResource (r : R) | KGet.
Definition clear (m : mem) : mem := mk_mem [] (m_resource m) (m_down m).

(** InMemorySpanExporter (trace:92-154). *)
Definition span_mem (m : mem) (c : mcall) : mem :=
  match c with
  | KExport b => mk_mem (m_items m ++ b) (m_resource m) (m_down m)
  | KReset => clear m
  | KShutdown => clear m
  | KSetResource r => mk_mem (m_items m) r (m_down m)
  | KGet => m
  end.
Definition span_get (m : mem) : list A := m_items m.

(** InMemoryLogExporter (logs:141-221).  [keep] is keep_records_on_shutdown, which only tests
    of the crate can set (logs:133-138).  The records of a batch are pushed one by one. *)
Fixpoint push_all (l b : list A) : list A := match b with [] => l | a :: b => push_all (l ++ [a]) b end.
Definition log_mem (keep : bool) (m : mem) (c : mcall) : mem :=
  match c with
  | KExport b => mk_mem (push_all (m_items m) b) (m_resource m) (m_down m)
  | KReset => clear m
  | KShutdown => let m := mk_mem (m_items m) (m_resource m) true in if keep then m else clear m
  | KSetResource r => mk_mem (m_items m) r (m_down m)
  | KGet => m
  end.
(** LogDataWithResource: every record gets the resource the exporter has now. *)
Definition log_get (m : mem) : list (A * R) := map (fun a => (a, m_resource m)) (m_items m).
End store.
Arguments mem : clear implicits. Arguments mcall : clear implicits.

(** clone_metrics and clone_data (metrics:175-236), field by field. *)
Definition clone_inner {T} (d : mdata T) : mdata T :=
  match d with
  | MGauge points start time => MGauge points start time
  | MSum points start time t mono => MSum points start time t mono
  | MHist points start time t => MHist points start time t
  | MExpo points start time t => MExpo points start time t
  end.
Definition clone_data (d : amdata) : amdata :=
  match d with DF64 d => DF64 (clone_inner d) | DU64 d => DU64 (clone_inner d) | DI64 d => DI64 (clone_inner d) end.
Definition rmetrics : Type := resource * list (scope * list metric).
Definition clone_metrics (m : rmetrics) : rmetrics :=
  (fst m, map (fun sm => (fst sm, map (fun me => mk_metric (me_name me) (me_desc me) (me_unit me) (clone_data (me_data me))) (snd sm))) (snd m)).
(** InMemoryMetricExporter (metrics:134-173, 239-264): shutdown does nothing; there is no
    set_resource; an export is one ResourceMetrics. *)
Definition metric_mem (m : mem rmetrics unit) (c : mcall rmetrics unit) : mem rmetrics unit :=
  match c with
  | KExport b => mk_mem (m_items m ++ map clone_metrics b) tt (m_down m)
  | KReset => clear m
  | KShutdown | KSetResource _ | KGet => m
  end.
Definition metric_get (m : mem rmetrics unit) : list rmetrics := map clone_metrics (m_items m).
