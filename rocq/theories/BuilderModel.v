(** [SpanBuilder] and the ways to start a span from one:
    opentelemetry/src/trace/tracer.rs.  The [builder] record and what a started
    span holds are in SpanModel.v. *)
From Coq Require Import List NArith ZArith Bool.
From Verif Require Import Str ContextModel TraceModel Carrier SamplerModel SpanModel.
Import ListNotations.
Local Open Scope N_scope.

Section builder.
Context {A V : Type}.

(** [SpanBuilder::default] with a name: [SpanBuilder::from_name] and
    [Tracer::span_builder] (tracer.rs:283-288, 162-167). *)
Definition from_name (name : str) : builder A :=
  mk_builder None None None name None None None None None Unset None.

(** The [with_*] methods (tracer.rs:291-371).  Arguments that are
    [Into<SystemTime>] or [IntoIterator] are already converted. *)
Inductive bcall :=
| WithTraceId (t : N)
| WithSpanId (s : N)
| WithKind (k : N)
| WithStartTime (t : Z)
| WithEndTime (t : Z)
| WithAttributes (attrs : list A)
| WithEvents (events : list (event A))
| WithLinks (links : list (link A))
| WithStatus (s : status)
| WithSamplingResult (r : decision * list A * tstate).

Definition b_apply (b : builder A) (c : bcall) : builder A :=
  let (t, s, k, n, st, en, a, e, l, u, r) := b in
  match c with
  | WithTraceId x => mk_builder (Some x) s k n st en a e l u r
  | WithSpanId x => mk_builder t (Some x) k n st en a e l u r
  | WithKind x => mk_builder t s (Some x) n st en a e l u r
  | WithStartTime x => mk_builder t s k n (Some x) en a e l u r
  | WithEndTime x => mk_builder t s k n st (Some x) a e l u r
  | WithAttributes x => mk_builder t s k n st en (Some x) e l u r
  | WithEvents x => mk_builder t s k n st en a (Some x) l u r
  | WithLinks x => mk_builder t s k n st en a e (Some (filter (fun j => sc_is_valid (ln_sc j)) x)) u r
  | WithStatus x => mk_builder t s k n st en a e l x r
  | WithSamplingResult x => mk_builder t s k n st en a e l u (Some x)
  end.
Definition b_build (name : str) (calls : list bcall) : builder A := fold_left b_apply calls (from_name name).

(** [Event::with_name] and [Link::with_context] (opentelemetry/src/trace/mod.rs:225-232, 267-273). *)
Definition event_with_name (n : str) (now : Z) : event A := mk_event n now [] 0.
Definition link_with_context (sc : span_context) : link A := mk_link sc [] 0.

(** What a configured sampler is shown (opentelemetry-sdk/src/trace/tracer.rs:227-234). *)
Definition shown (should_sample : sctx V -> N -> str -> N -> list A -> list (link A) -> decision * list A * tstate)
  (parent : sctx V) (trace_id : N) (b : builder A) : decision * list A * tstate :=
  should_sample parent trace_id (sb_name b)
    (match sb_kind b with Some k => k | None => INTERNAL end)
    (match sb_attrs b with Some a => a | None => [] end)
    (match sb_links b with Some l => l | None => [] end).

(** [SpanBuilder::start_with_context] and [Tracer::build_with_context]
    (tracer.rs:379-381, 175); [SpanBuilder::start] and [Tracer::build], on a thread
    with its context stack (tracer.rs:374-376, 170-172); [Tracer::start] and
    [Tracer::start_with_context] (tracer.rs:134-156).  The first arguments are
    those of the SDK tracer. *)
Section start.
Context (l : limits) (shutdown : bool)
  (should_sample : sctx V -> N -> str -> N -> list A -> list (link A) -> decision * list A * tstate)
  (gen_trace gen_span : N) (now : Z) (on_start : list (span A -> list (span_op A))).
Definition b_start_with_context (b : builder A) (parent : sctx V) : span A :=
  start_span l shutdown (shown should_sample) gen_trace gen_span now on_start b parent.
Definition b_start (t : thread (sctx V)) (b : builder A) : span A := b_start_with_context b (th_current t).
Definition t_start_with_context (name : str) (parent : sctx V) : span A :=
  b_start_with_context (from_name name) parent.
Definition t_start (t : thread (sctx V)) (name : str) : span A := t_start_with_context name (th_current t).
End start.
End builder.
Arguments bcall : clear implicits.
