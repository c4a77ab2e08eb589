(** Spans and their creation: opentelemetry-sdk/src/trace/span.rs, tracer.rs,
    span_limit.rs, opentelemetry/src/trace/span.rs.
    Attributes ([KeyValue]) are of an arbitrary type [A]; times are integers
    (nanoseconds).  Simplification: counters of type u32 wrap (a debug build
    would panic on the overflow of [+= 1]). *)
From Coq Require Import List NArith ZArith Bool.
From Verif Require Import Str ContextModel TraceModel Carrier SamplerModel.
Import ListNotations.
Local Open Scope N_scope.

Definition u32 (n : N) : N := n mod 2 ^ 32.

(** [Status] (opentelemetry/src/trace/span.rs:281-296); the derived order
    compares variants first, then descriptions.  Descriptions are compared by
    code points, which is the same order as by UTF-8 bytes. *)
Inductive status := Unset | Error (description : str) | StatusOk.
Fixpoint str_ltb (a b : str) : bool :=
  match a, b with
  | _, [] => false
  | [], _ :: _ => true
  | x :: a', y :: b' => if x <? y then true else if y <? x then false else str_ltb a' b'
  end.
Definition status_ltb (a b : status) : bool :=
  match a, b with
  | Unset, Unset => false
  | Unset, _ => true
  | Error x, Error y => str_ltb x y
  | Error _, StatusOk => true
  | _, _ => false
  end.

(** [SpanLimits] (span_limit.rs). *)
Record limits := mk_limits {
  max_events : N; max_attrs : N; max_links : N; max_event_attrs : N; max_link_attrs : N }.
Definition default_limits : limits := mk_limits 128 128 128 128 128.

Section span.
Context {A V : Type}.

(** [Event] and [Link] (opentelemetry/src/trace/mod.rs:220-280). *)
Record event := mk_event { ev_name : str; ev_time : Z; ev_attrs : list A; ev_dropped : N }.
Record link := mk_link { ln_sc : span_context; ln_attrs : list A; ln_dropped : N }.

(** [SpanData] (span.rs:27-48). *)
Record span_data := mk_data {
  sd_parent : N; sd_kind : N; sd_name : str; sd_start : Z; sd_end : Z;
  sd_attrs : list A; sd_attrs_dropped : N;
  sd_events : list event; sd_events_dropped : N;
  sd_links : list link; sd_links_dropped : N;
  sd_status : status }.

(** [Span] (span.rs:18-24) without the tracer. *)
Record span := mk_span { sp_ctx : span_context; sp_data : option span_data; sp_limits : limits }.
Definition is_recording (s : span) : bool := match sp_data s with Some _ => true | None => false end.

Definition count {B : Type} (l : list B) : N := N.of_nat (length l).
(** [Vec::truncate]. *)
Definition truncate {B : Type} (n : N) (l : list B) : list B := firstn (N.to_nat n) l.

(** [add_event_with_timestamp] (span.rs:93-121). *)
Definition data_add_event (l : limits) (name : str) (t : Z) (attrs : list A) (d : span_data) : span_data :=
  if count (sd_events d) <? max_events l then
    let e := mk_event name t (truncate (max_event_attrs l) attrs) (u32 (count attrs - max_event_attrs l)) in
    mk_data (sd_parent d) (sd_kind d) (sd_name d) (sd_start d) (sd_end d) (sd_attrs d) (sd_attrs_dropped d)
      (sd_events d ++ [e]) (sd_events_dropped d) (sd_links d) (sd_links_dropped d) (sd_status d)
  else
    mk_data (sd_parent d) (sd_kind d) (sd_name d) (sd_start d) (sd_end d) (sd_attrs d) (sd_attrs_dropped d)
      (sd_events d) (u32 (sd_events_dropped d + 1)) (sd_links d) (sd_links_dropped d) (sd_status d).
(** [set_attribute] (span.rs:140-149). *)
Definition data_set_attribute (l : limits) (a : A) (d : span_data) : span_data :=
  if count (sd_attrs d) <? max_attrs l then
    mk_data (sd_parent d) (sd_kind d) (sd_name d) (sd_start d) (sd_end d) (sd_attrs d ++ [a]) (sd_attrs_dropped d)
      (sd_events d) (sd_events_dropped d) (sd_links d) (sd_links_dropped d) (sd_status d)
  else
    mk_data (sd_parent d) (sd_kind d) (sd_name d) (sd_start d) (sd_end d) (sd_attrs d) (u32 (sd_attrs_dropped d + 1))
      (sd_events d) (sd_events_dropped d) (sd_links d) (sd_links_dropped d) (sd_status d).
(** [set_status] (span.rs:154-162). *)
Definition data_set_status (s : status) (d : span_data) : span_data :=
  if status_ltb (sd_status d) s then
    mk_data (sd_parent d) (sd_kind d) (sd_name d) (sd_start d) (sd_end d) (sd_attrs d) (sd_attrs_dropped d)
      (sd_events d) (sd_events_dropped d) (sd_links d) (sd_links_dropped d) s
  else d.
(** [update_name] (span.rs:165-172). *)
Definition data_update_name (n : str) (d : span_data) : span_data :=
  mk_data (sd_parent d) (sd_kind d) n (sd_start d) (sd_end d) (sd_attrs d) (sd_attrs_dropped d)
    (sd_events d) (sd_events_dropped d) (sd_links d) (sd_links_dropped d) (sd_status d).
(** [add_link] (span.rs:176-195). *)
Definition data_add_link (l : limits) (sc : span_context) (attrs : list A) (d : span_data) : span_data :=
  if count (sd_links d) <? max_links l then
    let k := mk_link sc (truncate (max_link_attrs l) attrs) (u32 (count attrs - max_link_attrs l)) in
    mk_data (sd_parent d) (sd_kind d) (sd_name d) (sd_start d) (sd_end d) (sd_attrs d) (sd_attrs_dropped d)
      (sd_events d) (sd_events_dropped d) (sd_links d ++ [k]) (sd_links_dropped d) (sd_status d)
  else
    mk_data (sd_parent d) (sd_kind d) (sd_name d) (sd_start d) (sd_end d) (sd_attrs d) (sd_attrs_dropped d)
      (sd_events d) (sd_events_dropped d) (sd_links d) (u32 (sd_links_dropped d + 1)) (sd_status d).

(** The operations of the [Span] trait other than [end]
    (opentelemetry/src/trace/span.rs:36-160).  [record_error] builds the
    attribute [a] from the error and adds an "exception" event. *)
Inductive span_op :=
| AddEvent (name : str) (t : Z) (attrs : list A)
| RecordError (exception : str) (t : Z) (a : A)
| SetAttribute (a : A)
| SetAttributes (attrs : list A)
| SetStatus (s : status)
| UpdateName (n : str)
| AddLink (sc : span_context) (attrs : list A).

Definition data_op (l : limits) (o : span_op) (d : span_data) : span_data :=
  match o with
  | AddEvent n t attrs => data_add_event l n t attrs d
  | RecordError e t a => data_add_event l e t [a] d
  | SetAttribute a => data_set_attribute l a d
  | SetAttributes attrs => fold_left (fun d a => data_set_attribute l a d) attrs d
  | SetStatus s => data_set_status s d
  | UpdateName n => data_update_name n d
  | AddLink sc attrs => data_add_link l sc attrs d
  end.
(** [with_data] (span.rs:67-72): nothing happens once the data is gone. *)
Definition span_apply (o : span_op) (s : span) : span :=
  mk_span (sp_ctx s) (option_map (data_op (sp_limits s) o) (sp_data s)) (sp_limits s).

(** The exported form (span.rs:249-269): context and data, and the scope of
    the tracer. *)
Record exported := mk_exported { ex_ctx : span_context; ex_data : span_data; ex_scope : str }.

Definition data_end (t : Z) (d : span_data) : span_data :=
  mk_data (sd_parent d) (sd_kind d) (sd_name d) (sd_start d) t (sd_attrs d) (sd_attrs_dropped d)
    (sd_events d) (sd_events_dropped d) (sd_links d) (sd_links_dropped d) (sd_status d).

(** [ensure_ended_and_exported] (span.rs:200-239): the span afterwards and what
    is handed to every processor.  [now] is the clock when it is needed. *)
Definition ensure_ended (scope : str) (shutdown : bool) (ts : option Z) (now : Z) (s : span) : span * option exported :=
  match sp_data s with
  | None => (s, None)
  | Some d =>
    let s' := mk_span (sp_ctx s) None (sp_limits s) in
    if shutdown then (s', None)
    else
      let d := match ts with
               | Some t => data_end t d
               | None => if (sd_end d =? sd_start d)%Z then data_end now d else d
               end in
      (s', Some (mk_exported (sp_ctx s) d scope))
  end.

(** A life of a span: operations, [end_with_timestamp] ([end] reads the clock
    first), drop, and the provider being shut down by someone. *)
Inductive action := Op (o : span_op) | End (t : Z) | DropSpan (now : Z) | ProviderShutdown.

Definition hand_over {P : Type} (procs : list P) (e : option exported) : list (P * exported) :=
  match e with Some e => map (fun p => (p, e)) procs | None => [] end.

Definition live {P : Type} (scope : str) (procs : list P) (st : span * bool * list (P * exported)) (a : action)
  : span * bool * list (P * exported) :=
  let '(s, down, out) := st in
  match a with
  | Op o => (span_apply o s, down, out)
  | End t => let (s', e) := ensure_ended scope down (Some t) 0 s in (s', down, out ++ hand_over procs e)
  | DropSpan now => let (s', e) := ensure_ended scope down None now s in (s', down, out ++ hand_over procs e)
  | ProviderShutdown => (s, true, out)
  end.
Definition run_span {P : Type} (scope : str) (procs : list P) (down : bool) (s : span) (acts : list action)
  : span * bool * list (P * exported) :=
  fold_left (live scope procs) acts (s, down, []).

(** [SpanBuilder] (opentelemetry/src/trace/tracer.rs:155-190). *)
Record builder := mk_builder {
  sb_trace_id : option N; sb_span_id : option N; sb_kind : option N; sb_name : str;
  sb_start : option Z; sb_end : option Z;
  sb_attrs : option (list A); sb_events : option (list event); sb_links : option (list link);
  sb_status : status;
  sb_sampling : option (decision * list A * tstate) }.

(** SpanKind by its position in the enum (opentelemetry/src/trace/span.rs:226-255):
    Client, Server, Producer, Consumer, Internal. *)
Definition INTERNAL : N := 4.

(** [build_recording_span] (tracer.rs:55-150); [now] is the clock. *)
Definition build_recording_span (l : limits) (psc sc : span_context) (b : builder) (extra : list A) (now : Z) : span :=
  let attrs := match sb_attrs b with Some x => x | None => [] end ++ extra in
  let attrs_dropped := u32 (count attrs - max_attrs l) in
  let attrs := truncate (max_attrs l) attrs in
  let '(links, links_dropped) :=
    match sb_links b with
    | Some ls => (map (fun k => mk_link (ln_sc k) (truncate (max_link_attrs l) (ln_attrs k))
                                  (u32 (count (ln_attrs k) - max_link_attrs l)))
                      (truncate (max_links l) ls), u32 (count ls - max_links l))
    | None => ([], 0)
    end in
  let start := match sb_start b with Some t => t | None => now end in
  let stop := match sb_end b with Some t => t | None => start end in
  let '(events, events_dropped) :=
    match sb_events b with
    | Some es => (map (fun e => mk_event (ev_name e) (ev_time e) (truncate (max_event_attrs l) (ev_attrs e))
                                  (u32 (count (ev_attrs e) - max_event_attrs l)))
                      (truncate (max_events l) es), u32 (count es - max_events l))
    | None => ([], 0)
    end in
  mk_span sc
    (Some (mk_data (sc_span psc) (match sb_kind b with Some k => k | None => INTERNAL end) (sb_name b) start stop
             attrs attrs_dropped events events_dropped links links_dropped (sb_status b)))
    l.

(** [TraceFlags::with_sampled] (opentelemetry/src/trace_context.rs:44-51). *)
Definition with_sampled (f : N) (b : bool) : N := if b then N.lor f SAMPLED else N.land f 254.

(** [build_with_context] (tracer.rs:180-290) up to the processors' [on_start].
    [sample] is the configured sampler applied to the parent context and the
    trace id (it may also look at the builder); [gen_trace]/[gen_span] are what
    the id generator returns. *)
Definition build_with_context (l : limits) (shutdown : bool) (sample : sctx V -> N -> builder -> decision * list A * tstate)
  (gen_trace gen_span : N) (now : Z) (b : builder) (parent : sctx V) : span :=
  if cx_suppress parent then mk_span sc_none None default_limits
  else if shutdown then mk_span sc_none None default_limits
  else
    let span_id := match sb_span_id b with Some i => i | None => gen_span end in
    let '(trace_id, psc) :=
      match cx_span parent with
      | Some sc => (sc_trace sc, sc)
      | None => (match sb_trace_id b with Some i => i | None => gen_trace end, sc_none)
      end in
    let '(dec, extra, state) :=
      match sb_sampling b with Some r => r | None => sample parent trace_id b end in
    let flags := sc_flags (cx_span_context parent) in
    match dec with
    | RecordAndSample =>
      build_recording_span l psc (mk_sc trace_id span_id (with_sampled flags true) false state) b extra now
    | RecordOnly =>
      build_recording_span l psc (mk_sc trace_id span_id (with_sampled flags false) false state) b extra now
    | Drop => mk_span (mk_sc trace_id span_id 0 false state) None l
    end.

(** [on_start] of a processor gets the span and may operate on it
    (tracer.rs:285-288); its effect is a list of operations.  Simplification: an
    [on_start] that ends the span itself is not covered. *)
Definition start_span (l : limits) (shutdown : bool) (sample : sctx V -> N -> builder -> decision * list A * tstate)
  (gen_trace gen_span : N) (now : Z) (on_start : list (span -> list span_op)) (b : builder) (parent : sctx V) : span :=
  let s := build_with_context l shutdown sample gen_trace gen_span now b parent in
  if cx_suppress parent || shutdown then s
  else fold_left (fun s f => fold_left (fun s o => span_apply o s) (f s) s) on_start s.
End span.
Arguments event : clear implicits. Arguments link : clear implicits. Arguments span_data : clear implicits.
Arguments span : clear implicits. Arguments span_op : clear implicits. Arguments exported : clear implicits.
Arguments action : clear implicits. Arguments builder : clear implicits.
