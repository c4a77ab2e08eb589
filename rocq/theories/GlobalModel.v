(** The global providers and propagator: opentelemetry/src/global/trace.rs:315-440,
    global/metrics.rs and global/propagation.rs; the no-op tracer and propagator they start
    with (opentelemetry/src/trace/noop.rs). *)
From Coq Require Import List NArith Bool Arith.
From Verif Require Import Str ContextModel TraceModel Carrier.
Import ListNotations.

(** * The static behind one RwLock. *)
(** Providers are numbers; 0 is the no-op one the static starts with (OnceLock::get_or_init,
    trace.rs:372-376, metrics.rs:11-15, propagation.rs:14-16).  A call:
    - [GGet]: global::tracer, tracer_provider, meter, meter_provider: the current provider
      is cloned under the read lock (trace.rs:381-386, metrics.rs:42-51); what it was is
      observed.  The caller lets go of the clone at once.
    - [GWith body]: get_text_map_propagator (propagation.rs:33-44): the closure runs under
      the read lock.
    - [GSet p]: set_tracer_provider, set_meter_provider, set_text_map_propagator.
    - [GDrop p]: the application drops one of its own clones of provider [p]. *)
Inductive gcall := GGet | GWith (body : list gcall) | GSet (p : nat) | GDrop (p : nat).
(** What a thread still has to do: [ISetting p] waits for the write lock. *)
Inductive ginstr := GI (c : gcall) | ISetting (p : nat) | IRelRead | IRelWrite | IDrop (p : nat).

(** [g_waiting]: the number of threads that wait for the write lock.  [g_refs]: the
    references to a provider, the one of the static included.  [g_down]: the providers that
    were dropped, which shuts them down.  [g_obs]: what [GGet] has seen.  [g_hist]: the
    order of the gets and sets (not part of the code). *)
Inductive gevent := EGet (t : nat) | ESet (t p : nat).
Record gst := mk_gst { g_slot : nat; g_readers : nat; g_writer : bool; g_waiting : nat; g_refs : nat -> nat;
  g_down : list nat; g_obs : list (nat * nat); g_hist : list gevent; g_code : nat -> list ginstr }.
Definition gupd {B} (f : nat -> B) (t : nat) (l : B) : nat -> B := fun u => if Nat.eqb u t then l else f u.

Section global.
(** [inside]: whether the replaced provider is dropped under the write lock.  It is by
    [**provider = Arc::new(..)] (metrics.rs:28-29) and [*global_propagator = ..]
    (propagation.rs:26-28); set_tracer_provider returns it and the caller drops it
    (trace.rs:428-440).
    [on_drop p]: the calls that are made while the last reference to provider [p] is
    dropped: the SDK's providers shut down (sdk/src/metrics/meter_provider.rs:155-182), which
    writes internal log messages, runs exporters and observable callbacks, and waits for
    them.  Simplification: a wait that gives up after a time (five seconds for the periodic
    reader's thread, periodic_reader.rs:456) is not distinguished from one that does not
    (readers of the application's own, the reader on an async runtime). *)
Context (inside : bool) (on_drop : nat -> list gcall).

(** One step of thread [t]; [None] if it has nothing to do or waits.  The RwLock of std makes
    readers wait behind writers that wait (futex implementation). *)
Definition gstep (t : nat) (s : gst) : option gst :=
  let next l := gupd (g_code s) t l in
  match g_code s t with
  | [] => None
  | GI GGet :: k =>
    if g_writer s || (0 <? g_waiting s) then None
    else Some (mk_gst (g_slot s) (S (g_readers s)) false 0 (g_refs s) (g_down s) (g_obs s ++ [(t, g_slot s)]) (g_hist s ++ [EGet t]) (next (IRelRead :: k)))
  | GI (GWith body) :: k =>
    if g_writer s || (0 <? g_waiting s) then None
    else Some (mk_gst (g_slot s) (S (g_readers s)) false 0 (g_refs s) (g_down s) (g_obs s ++ [(t, g_slot s)]) (g_hist s ++ [EGet t]) (next (map GI body ++ IRelRead :: k)))
  | GI (GSet p) :: k =>
    Some (mk_gst (g_slot s) (g_readers s) (g_writer s) (S (g_waiting s)) (g_refs s) (g_down s) (g_obs s) (g_hist s) (next (ISetting p :: k)))
  | GI (GDrop p) :: k =>
    Some (mk_gst (g_slot s) (g_readers s) (g_writer s) (g_waiting s) (g_refs s) (g_down s) (g_obs s) (g_hist s) (next (IDrop p :: k)))
  | ISetting p :: k =>
    if g_writer s || (0 <? g_readers s) then None
    else Some (mk_gst p 0 true (pred (g_waiting s)) (gupd (g_refs s) p (S (g_refs s p))) (g_down s) (g_obs s) (g_hist s ++ [ESet t p])
                 (next ((if inside then [IDrop (g_slot s); IRelWrite] else [IRelWrite; IDrop (g_slot s)]) ++ k)))
  | IRelRead :: k => Some (mk_gst (g_slot s) (pred (g_readers s)) (g_writer s) (g_waiting s) (g_refs s) (g_down s) (g_obs s) (g_hist s) (next k))
  | IRelWrite :: k => Some (mk_gst (g_slot s) (g_readers s) false (g_waiting s) (g_refs s) (g_down s) (g_obs s) (g_hist s) (next k))
  | IDrop p :: k =>
    match g_refs s p with
    | 1 => Some (mk_gst (g_slot s) (g_readers s) (g_writer s) (g_waiting s) (gupd (g_refs s) p 0) (g_down s ++ [p]) (g_obs s) (g_hist s) (next (map GI (on_drop p) ++ k)))
    | n => Some (mk_gst (g_slot s) (g_readers s) (g_writer s) (g_waiting s) (gupd (g_refs s) p (pred n)) (g_down s) (g_obs s) (g_hist s) (next k))
    end
  end.
(** [held p]: the clones of provider [p] that the application keeps. *)
Definition gstart (held : nat -> nat) (prog : nat -> list gcall) : gst :=
  mk_gst 0 0 false 0 (gupd held 0 1) [] [] [] (fun t => map GI (prog t)).
Inductive greach : gst -> gst -> Prop :=
| greach_refl s : greach s s
| greach_step s s' s'' t : greach s s' -> gstep t s' = Some s'' -> greach s s''.
End global.

(** * The no-op implementations. *)
(** NoopTracer::build_with_context (noop.rs:121-131): the span context of the parent is the
    span context of the new span, which never records. *)
Definition noop_start {V} (parent : context span_context V) : span_context := cx_span_context parent.
(** Context::with_span / current_with_span of that span. *)
Definition noop_child {V} (parent : context span_context V) : context span_context V := cx_with_span (noop_start parent) parent.
(** NoopTextMapPropagator (noop.rs:150-165): extraction returns the current context of the
    thread, [cur], not the one it is given. *)
Definition noop_propagator {V} (cur : context span_context V) : propagator V := mk_prop (fun _ c => c) (fun _ _ => cur) [].
