# Formal model of opentelemetry-rust in Rocq

## Layout

`rocq/theories/` holds, per area, up to four kinds of file:

* `<Area>Model.v` – executable Gallina transcription of the Rust code.
  Every definition cites the file and lines it models and says what is simplified.
* `<Area>Spec.v` – small specification vocabulary written without looking at
  the model's helpers (only where the statement needs its own vocabulary).
* `<Area>Proofs.v` – lemmas.
* `<Area>Props.v` – the property theorems only.  Each is closed by
  `exact <lemma>`, followed by `Print Assumptions` and by an `Example` that a
  concrete non-trivial case meets its hypotheses.

Naming: `Cnn_…` proves property Cnn; `…_partial` proves part of it;
`…_refuted` is a machine-checked counterexample: the model of the unchanged
code violates the property as stated (a finding).  Where an expectation holds
under conditions only, two properties state it: one with its conditions, which is
proved, and one without (C89–C137), which is refuted.

## Modelling conventions

* A Rust string is the list of its Unicode scalar values (`list N`), with UTF-8
  encoding modelled explicitly wherever the code looks at bytes.
* `&mut self` methods return the new value.  `Result`/`Option` stay data.  A
  panic is an explicit error value.
* Fixed-width integers are `N`/`Z`; where wrap-around can matter the `mod 2^n`
  is written in the model.
* `HashMap` iteration order is not fixed: models that iterate a map either take
  the order as an arbitrary permutation argument or prove results up to
  permutation.
* Concurrency: each shared-memory or channel access is one atomic step of a
  transition system; theorems quantify over every schedule (list of steps).
  Memory is assumed sequentially consistent (the code uses Relaxed orderings on
  independent counters; per-location coherence is what the proofs use).
* Exporters, clocks, id generators and user callbacks are arbitrary functions
  or oracle lists quantified in the theorem, never axioms.
* f64: modelled by the exact rational/dyadic value where the code's arithmetic
  on it is exact or monotone; each use says so.

## Trusted base

* Coq 8.16.1 kernel, `vm_compute`.
* `Print Assumptions` is printed under each property theorem; see the section
  "Assumptions" at the end for the collected result.
* The reading of the Rust source by the author: the code was not run.
* The reading of the documented behaviour of what the code calls: the standard
  library (HashMap, VecDeque, mpsc channels, string and number parsing), and the
  crates `http` (HeaderMap), `prometheus` (registry checks), `glob`, `url`, serde's
  and prost's derives (ProtoModel states which bytes prost writes for each attribute).  Each model says what it takes from them.
* The English statements in properties.jsonl are tied to the theorems by reading;
  seeded/LOG.jsonl records how the theorems reacted to wrong programs.

See "What is and is not modelled" below.

## What is and is not modelled

| Files (`rocq/theories`) | Rust code | Properties |
|---|---|---|
| Str, StrProofs, Carrier, F64, F64Proofs | strings, UTF-8, text-map carriers, binary64 (Flocq) | used by all |
| Context* | opentelemetry/src/context.rs, context/future_ext.rs | C01–C04 |
| Baggage*, BaggageRead* | opentelemetry/src/baggage.rs, opentelemetry-sdk/src/propagation/baggage.rs | C05–C08, C67, C82 |
| Trace*, W3C* | opentelemetry/src/trace_context.rs, trace/span_context.rs, sdk/src/propagation/trace_context.rs | C09–C16 |
| Prop* | B3 and Jaeger propagators, composite propagator | C17–C21, C68 |
| Sampler* | sdk/src/trace/sampler.rs, sampler/jaeger_remote | C22–C24, C70 |
| Remote* | sdk/src/trace/sampler/jaeger_remote: the fetching task, the documents, the handles, the endpoint | C160–C164 |
| Span* | sdk/src/trace/span.rs, tracer.rs, span_limit.rs, links/events | C25–C29 |
| Builder* | SpanBuilder and the start/build methods of Tracer (opentelemetry/src/trace/tracer.rs) | C156, C157 |
| Provider* | tracer and logger providers' life cycle | C30 |
| Batch* | threaded batch processors for spans and logs | C32–C34, C36–C38, C71 |
| Log* | logger, log record, simple processors, growable array | C31, C35, C39–C41 |
| Attr*, ValueMap*, Atomic* | sdk/src/metrics/internal/mod.rs, sum, last_value | C42–C46, C50 |
| Hist*, Expo*, Observable* | the aggregations | C47–C49, C51, C52 |
| Instr*, Pipeline* | instruments, views, pipeline inserter, resolver | C53–C55, C73, C74 |
| Produce*, Periodic*, AsyncReader*, MeterProvider* | collection, readers, meter provider | C56, C57, C75–C77, C85 |
| Resource* | resources and detectors | C58, C59, C78 |
| Kv* | KeyValue and InstrumentationScope equality and hash | C64 |
| Otlp* | opentelemetry-proto/src/transform | C60–C62, C79 |
| Proto* | the bytes prost derives from the generated messages in opentelemetry-proto/src/proto/tonic | C158 |
| Tracez* | opentelemetry-proto/src/transform/tracez.rs and its messages | C159 |
| Json* | opentelemetry-proto/src/proto.rs and the serde attributes | C86 |
| Prom* | opentelemetry-prometheus | C63, C80, C148, C149 |
| TextProps | the Display text of values (modelled in ZipkinModel.v) and the Prometheus labels made of it | C166–C169 |
| ResFlow* | the builders' resources and PROVIDER_RESOURCE; `set_resource` of the batch processors on top of Batch* and Async* | C170–C172 |
| ChainProps | no new code: composites of propagators on both sides of requests, samplers and span builder composed to trees of spans over services | C173, C174 |
| OtlpConf* | opentelemetry-otlp configuration and exporters' life cycle | C65, C81 |
| Async* | batch processors on an async runtime | C66 |
| Http* | opentelemetry-http header carriers | C83 |
| Config* | trace config, batch configs and periodic reader settings from the environment and the builders | C84, C152 |
| Zipkin* | opentelemetry-zipkin/src/exporter | C87 |
| Bridge* | opentelemetry-appender-log, opentelemetry-appender-tracing (default features, and with-serde) | C88 |
| Reentry* | the RefCell around the context stack, owners of active spans, callbacks run inside its borrows (context.rs, trace/context.rs, Tracer::start/in_span, Drop of Span) | C69 |
| Active* | SpanRef, SynchronizedSpan, BoxedSpan: the mutex around the span of a context, poisoning, callbacks under the lock (trace/context.rs, global/trace.rs) | C138-C140 |
| Global*, NoopProps | the global provider locks (global/{trace,metrics,propagation}.rs), NoopTracer, NoopTextMapPropagator (trace/noop.rs) | C141-C144, C155 |
| Memory* | the in-memory exporters of the three signals | C145-C147 |
| WireProps | composition of Batch*/Log* with Otlp*: requests sent for ended spans and emitted records | C150 |
| Seq* | the aggregation store used by one thread at a time, as functions; runs of ValueMap* | C42, C151 |
| End* | pipelines, stores and collection put together, for any number of readers; aggregators are parameters, per number type and aggregation | C151, C165 |
| MetricWire*, MetricExpo* | End* with sums, observable sums, last values, explicit-bucket and exponential histograms of u64, i64 and f64 for aggregators, and the request made of a collection (a series whose recording panicked, C111, reports nothing in the model) | C165 |
| PromFlow* | no new code: MetricWire* followed by the Prometheus exporter's collect instead of OTLP | C175, C176 |
| SpanWire* | no new code: the builder, the tracer and the span, the batch processor, the conversion and the encoding one after the other (an `on_start` that changes the span is left out) | C177 |
| LogWire* | no new code: the record, the logger, the log and tracing bridges, the batch processor, the conversion and the encoding one after the other (a processor that changes the record is left out) | C178 |
| Stdout* | the stdout exporters: lines printed, concurrent export calls | C153, C154 |

Not modelled: memory safety, allocation failure, mutex poisoning (except where a
model says so), weak memory beyond per-location coherence, real time (a timeout or a
tick is a nondeterministic choice), serde_json's text, network
I/O, the reqwest/hyper/tonic clients, the text of a float,
internal log messages, and the macros.  Simplifications inside a modelled function are stated at its definition.

## How the properties are proved

| Id | What is modelled | How it is proved |
|----|------------------|------------------|
| C01 | `ContextStack` (vector of optional saved contexts, current id) with `push`/`pop_id` | simulation to a list of live guards, induction over op lists |
| C02 | same, with the 65535 limit | invariant + overflow step lemma |
| C03 | `WithContext::poll` as attach; inner ops; drop | corollary of C01 simulation |
| C04 | `Context` record with type-indexed map | algebraic laws, induction over derivation chains |
| C05 | `Baggage` with tracked length | invariant over op lists |
| C06 | same | map laws; refutation of "removal gives space back" by a concrete history |
| C07 | `BaggageExt` over the typed context map | refutation (stores under the wrong type), plus what does hold |
| C08 | percent encoding over UTF-8, split/trim parser | round-trip lemma on the exact domain; refutation outside |
| C09–C11 | `TraceState` | invariants, list laws, parser/printer round trip |
| C12 | big-endian bytes, hex printing/parsing | positional-numeral lemmas |
| C13–C16 | `TraceContextPropagator` on a string carrier | parser/printer round trip; total case analysis of extraction; refutation for the strict grammar |
| C17–C18 | B3 propagator | same; refutations for the debug flag and for the single-header encoding |
| C19–C20 | Jaeger propagator | same; refutation for zero ids |
| C21 | composite over arbitrary members | fold lemmas |
| C22–C23 | `Sampler` inductive type, ratio as a rational | induction over nesting; monotonicity of floor; counting lemma |
| C24 | leaky bucket over rationals | potential-function invariant; refutation of refill under frequent polling |
| C25–C27 | span construction and mutation | invariants over op lists |
| C28–C29 | `build_with_context` | case analysis; induction over span trees; refutation for an invalid remote parent |
| C30 | provider with processors and handle count | invariant over op lists |
| C31 | simple processor | fold lemma |
| C32–C35 | batch span processor as an interleaving transition system | ghost-history invariants over all schedules; refutations by explicit schedules |
| C36–C38 | batch log processor, same style, counter modelled mod 2^64 | same; refutations of flush completeness and of progress by explicit schedules |
| C39–C41 | logger, simple/concurrent log processors, growable array | refinement to list |
| C42–C46 | `ValueMap` with sorted/unsorted keys, atomic trackers | refinement to an abstract map; ghost-sum invariants over interleavings |
| C47 | explicit histogram over an ordered carrier | refinement to counting |
| C48–C49 | exponential histogram (bins, downscale) | conservation invariant; floor-shift algebra; refutation for the scale underflow |
| C50–C52 | gauges, observable sums, time initiator | induction over cycles |
| C53–C56 | pipeline inserter, validation, views, produce | refinement; refutation for case-only renames |
| C57 | periodic reader worker | invariant over message sequences |
| C58–C59 | resource merge and detectors | map laws; refutation for OTEL_SERVICE_NAME |
| C60–C62 | OTLP transforms | permutation/grouping lemmas; injectivity; refutations for u64 and log scopes |
| C63 | Prometheus naming, label merging, buckets | character-class lemmas; refutations |
| C64 | KeyValue/InstrumentationScope Eq and Hash | equivalence laws; refutations (NaN, signed zero) |
| C65 | OTLP configuration | case analysis; refutation for headers |
| C66 | async-runtime batch processors | invariant over message sequences |
| C67, C82 | the baggage header parser | member-by-member characterisation of what is read; refutations for '=' and '%' in keys |
| C68 | `fields()` of every propagator | inclusion of written names; refutations for B3 SingleHeader and untrimmed Jaeger names |
| C70 | Jaeger remote sampler strategies | case analysis of updates, last-entry-wins; refutation for empty responses |
| C71 | batch processors | worker invariants shared with C32–C38 |
| C73, C74 | default aggregation, callbacks | selection table; refutation with two readers |
| C75, C76 | collection into a reused buffer | refinement to a fresh collection |
| C77 | meter provider | reuse of the provider machine of C30, scope cache refinement |
| C78 | OTEL_RESOURCE_ATTRIBUTES | parser characterisation |
| C79 | schema URLs in OTLP groups | case analysis; refutation |
| C80 | Prometheus collect over all scrapes | invariant over scrapes; refutations |
| C81 | request life cycle of the OTLP exporters | case analysis over protocol and signal; refutations |
| C83 | header maps | refinement to a map on lower-case names; refutation for non-ASCII values |
| C84, C152 | environment configuration | exact value of each setting; refutations for the span batch size and the zero interval |
| C85 | async periodic reader | refinement to the threaded reader of C57 |
| C86 | OTLP JSON | decoder after encoder is the identity, by induction over the messages; refutations for non-finite floats |
| C87 | Zipkin conversion, upload and settings | each field of the JSON read back; refutations for roots, service name and the error attribute |
| C88 | log and tracing bridges | induction over the serialized value; the record from C39 and C41 |
| C69 | callbacks and borrows | induction over the fuel of a big-step run with callbacks: borrow state restored, owners invariant |
| C138-C140 | span of a context | invariant over interleavings at mutex steps, then linearization to the one-thread span of C25 |
| C141, C142 | global locks | invariant over interleavings (readers, writer, waiting writer, owners); measure-free progress argument; refutations with a reached stuck state |
| C143, C144 | no SDK | induction over nesting, W3C round trip |
| C148, C149 | Prometheus scrapes | decomposition by induction over scopes and metrics, samples from C63 |
| C145-C147 | in-memory exporters | induction over the calls, spec by the suffix since the last clearing call |
| C150 | spans and records on the wire | the processor theorems composed with the OTLP conversion theorems |

Not expressible: none of the listed properties is outside the model, but
real-time behaviour (timeouts expiring, scheduling delay) appears only as
nondeterministic choice.
| C151 | composition of Pipeline*, Seq* and Produce* | per-stream refinement to the window of the stream, induction over events; delta windows tile, cumulative starts coincide |
| C153, C154 | line-level reader for the printed text; interleaved export calls | inverse of each printer; invariant over interleavings |
| C155 | reference counts of the global providers | invariant: count = slot + kept clones + drops to come |
| C156, C157 | builder calls and the started span | induction over calls, then composition with C25/C28 |
| C158 | request bodies as bytes | strict reader written from the published field numbers; parser after serializer is the identity, induction over fields and value nesting; composed with C150 and the conversions |
| C165 | composition of C151, the aggregators, the conversions and C158 | typing of the calls carries through the windows to the points, so the request is in the range of the wire format; per-set folds equal the sum, last value or histogram of a separate specification |
| C166–C169 | text of values, labels | injectivity by induction over the elements; labels recovered through C63; counterexamples for unescaped quotes, types and sanitized keys |
| C170–C172 | resource handed to workers | the transition systems of Batch* and Async* extended by the message; invariants over runs; projection to runs without it; counterexample for the timer |
| C175, C176 | measurements to Prometheus scrapes | C151 for the collection; the families known at the end of a scrape determine all of it; counts up to a boundary from C47; the scopes' parts are rearranged by a permutation |
| C177 | spans from API calls to bytes | the life of a span split at its first end (C26), what it was offered (C25, C156), then C150 and C158; the ids tell messages apart, so each story is told once |
| C178 | log records from API calls and bridges to bytes | the fields of a record are the last ones set (C41), the logger completes it (C39), then C61, C150 and C158; as records may be equal, the messages are matched with the exported records by a permutation; ids are told in one way only, so a record and its span are read with the same ones |
| C173, C174 | traces across services | invariant of the carrier over the sender's list (each format is whole or absent), fold over the receiver's list, induction over requests, then over the tree |
| C159 | the messages of the trace view | reader written from tracez.proto, compared with the exported span |
| C160–C162 | histories of fetches, handles and spans; documents as JSON | induction over histories; documents read by an independent description; refutations for the API's own answers and for the end of the task |
| C163, C164 | form-urlencoded query | reader of queries written separately; round trip by induction over bytes; refutation for a service in the endpoint |

## Findings

Behaviour of the code at this commit that contradicts its documentation, the
OpenTelemetry specification or a reasonable expectation.  Each is a `…_refuted`
theorem (a witness run of the model) or a conjunct of another theorem, unless marked
"(reading)", which means it was seen while modelling and has no theorem of its own.

Context, baggage, propagation
* `with_cleared_baggage` stores a value of another type, so the baggage stays (C07).
* `Baggage::remove` does not give the space of the entry back (C89).
* Baggage: '%' is not escaped on injection (C90); a value is cut at a '=' and keys are
  percent-decoded on extraction (C129).
* `TraceState` accepts keys and values outside the W3C grammar, rejects valid ones
  (C91), and keeps duplicate keys (C92).
* `traceparent`: short ids, '+' signs and a trailing dash are accepted; flags 03 rejected (C93).
* B3: the single header form writes x-b3-* headers too (C95), 'd' drops the sampled
  bit, a stale x-b3-flags stays (C94); headers written without being announced (C122).
* Jaeger: an all-zero context is installed (C97); one foreign uberctx-like header drops the
  whole context (C96).
* HTTP carriers: a non-ASCII trace state value or baggage metadata is written but
  unreadable, which loses the whole trace state or all baggage (C130).

Traces
* A parent with an invalid span context is not treated as absent (C98, C101).
* The leaky-bucket limiter starves when polled more often than once a second, and a
  clock going back admits everything (C99); an empty remote response discards the
  strategy in force (C124).
* The Jaeger remote sampler does not understand Jaeger's RATE_LIMITING answers, nor those
  without a type or a bound (C162); its task keeps fetching after the last sampler is
  dropped (C161); a service name in the endpoint is sent too, and first (C164); an
  endpoint that is not a URL is silently replaced by the default (C163).
* `set_status` ignores an error description that sorts lower than the current one (C100).
* `SpanBuilder::with_links` drops links with an invalid span context without counting
  them, while `Span::add_link` keeps them; dropped attribute counts given with events and
  links are overwritten when the span starts (C157).
* An end that is past its check is delivered after the provider's shutdown has returned (C102).
* The batch processor exports unsampled RecordOnly spans (C105).
* force_flush of the span batch processor exports one batch at most; shutdown drops
  the rest and never calls the exporter's shutdown (C103, C104).
* With batch size 1 a full batch may stay queued until the timer (reading).
* OTEL_BSP_MAX_QUEUE_SIZE is applied to the batch size before the program overrides
  the queue size (C131).  Unknown or upper-case sampler names silently become
  ParentBased(AlwaysOn); a NaN ratio samples nothing; event and link attribute limits
  have no environment variable (C131, reading).

Logs
* The log batch processor's counter can underflow, after which the worker loops for
  ever on an empty queue (C107); its flush can miss records (C106), reports only the
  last round, and its shutdown always answers Ok (C33_C34_C37_answer_reports_last_export).
* SimpleConcurrentLogProcessor checks no shutdown flag (C108).

Async processors and reader
* max_concurrent_exports has no effect; failures of full batches are only logged; the
  span shutdown answers before the exporter is shut down; a flush fails at once when the
  queue is full (C137).  The first tick comes after two intervals; dropping the
  processor leaves the worker running (reading).
* The async reader's force_flush and shutdown block for ever before registration (C132).

Metrics
* Two views whose streams differ only in case count each measurement twice (C114); an
  incompatible view aggregation makes the instrument record nothing (C73).
* Callbacks feed the measures of every reader (C125).
* Criteria with only scope attributes match everything; brackets and `**` are glob
  syntax (C115).  View masks' names are not validated; the duplicate-definition warning
  can never appear because its cache is never filled; builder boundaries and cardinality
  limits are ignored when a view matches (reading).
* A measurement without attributes can yield a zero point in the next delta (C109).
* Infinite measurements leave min at f64::MAX; a NaN goes to the first bucket (C110); a
  NaN boundary passes validation (reading).
* Exponential histograms: the default configuration panics on the largest and the
  smallest double together; max_size 2 drops subnormals (C111); buckets are inexact at positive scales (C112).
* Observable sums: a set skipped in one cycle restarts from zero, unsorted attributes
  may be keyed differently in each cycle (C113).
* A shutdown of the periodic reader that times out still exports afterwards (C57).
  OTEL_METRIC_EXPORT_INTERVAL=0 is not guarded (reading).

Resources and exporters
* OTEL_RESOURCE_ATTRIBUTES' service.name overrides OTEL_SERVICE_NAME (C116); values are
  not percent-decoded (C78); schema URL merging is not associative (C136).
* KeyValue equality is not reflexive for NaN, and 0.0 and -0.0 are equal with different
  hashes (C120).
* OTLP logs: scope version and attributes are dropped and same-named scopes merged (C117);
  the resource's schema URL replaces the scope's (C126); u64 from 2^63 become 0, times
  before the epoch become 0 (C118).
* OTLP configuration: environment headers override programmatic ones, '%+5' is decoded,
  an empty programmatic endpoint is an error; gRPC metadata from the environment replaces
  that set in code; a configured content-type header replaces the real one (C121).
* OTLP life cycle: metrics over HTTP ignore the status; span exporters and gRPC log
  exporters send after shutdown (C128); gRPC partial_success is ignored; URL and status are
  swapped in the HTTP trace error message (reading).
* OTLP JSON: one NaN attribute makes a trace request unreadable or silently removes a
  metric's data; exemplars are not in the OTLP/JSON form (C133).
* Prometheus: invalid names from views and namespaces, invalid or duplicate labels (C119);
  a user metric called target_info conflicts; duplicate series with scope labels off (C127).
* Prometheus: otel_scope_info, emitted only for scopes with attributes, does not carry
  them, and repeats a series for scopes that differ in attributes only (C149).
* Zipkin: a root span is sent with a parent id of sixteen zeros; the service name and the
  resource are never sent; the attribute `error` is dropped even if the status is unset;
  strings in arrays are not escaped; links, event attributes, trace state and dropped
  counts are not sent (C134).
* Log bridge: integer map keys become `Some(Int(1))`; nulls in sequences shift positions;
  a unit struct becomes its name although unit types are documented as discarded (C135).
* Tracing bridge: an error field loses its name, so two of them give the same key (C135).
* Dropping a context guard ends the span inside the exclusive borrow of the context stack:
  a processor whose on_end looks at Context::current panics under in_span and
  mark_span_as_active; emitting through a SimpleLogProcessor inside get_active_span, a
  sampler or on_start panics too (C123).
* cx.span().end() hands the span to the processors while the mutex of that span is held;
  an on_end that asks cx.span() blocks its thread.  set_attributes runs the caller's
  iterator under the same mutex (C139).
* A panic under that mutex poisons it: every later call on the span of the context, end
  included, is silently ignored (C140).
* set_meter_provider and set_text_map_propagator drop the replaced value under the write
  lock; a destructor or propagator closure that uses the global API blocks (C142).
* NoopTextMapPropagator, the default, returns Context::current() instead of the context it
  was given (C144).
* An SDK span started below a no-op span without a remote parent inherits the all-zero
  trace id (C101).
* The in-memory log exporter reports all logs with the resource that was set last (C147).
* OTEL_METRIC_EXPORT_INTERVAL=0 gives a periodic reader an interval of zero although a zero
  passed to the builder is ignored (C152).
* The stdout exporter prints only the type of an exponential histogram, none of its data
  points (C154).
* Arrays of strings are displayed with their elements between quotes but not escaped, so
  `["a","b"]` and the one-element array `["a\",\"b"]` look the same (C167).
* Two points of one metric can be the same Prometheus series: an attribute value `1` and a value
  `"1"` give the same label, and `a.b="x", a_b="y"` gives the same label as `a.b="y", a_b="x"` (C169).
* A batch processor with a thread can export its first batch with the resource the
  exporter was made with (an empty one for OTLP): the timer fires, the provider is built,
  a record is queued, and only then does the thread look for records (C171).  On an async
  runtime the resource and the records share a channel and this cannot happen (C170).
* A debug trace that arrives with B3's several headers (flags 5) and is sent on with the
  single header arrives there as flags 4, not sampled: the rest of the trace is not recorded (C174).
* A stream that a view makes an exponential histogram is missing from Prometheus scrapes,
  without a warning (C176).

## Assumptions

Collected from `Print Assumptions` of all 586 property theorems (the same command follows
each theorem in the source).  No axiom is declared in this development.  All axioms below come
from the Coq standard library; they enter through its real numbers, on which Flocq bases
binary64, and not through our own statements.

* Closed under the global context (no axiom): all other theorems, 467 in number.
* `ClassicalDedekindReals.sig_forall_dec`, `FunctionalExtensionality.functional_extensionality_dep`: C47_min_max, C62_floats_identify.
* `ClassicalDedekindReals.sig_forall_dec`, `ClassicalDedekindReals.sig_not_dec`, `Classical_Prop.classic`, `FunctionalExtensionality.functional_extensionality_dep`: C101_recording_spans_valid_refuted, C110_min_of_infinity_refuted, C111_default_configuration_panics_refuted, C111_two_buckets_refuted, C112_exact_at_positive_scales_refuted, C114_counted_once_refuted, C119_labels_unique_refuted, C120_hash_refuted, C120_reflexive_refuted, C124_empty_response_keeps_strategy_refuted, C125_observations_stay_with_reader_refuted, C127_one_series_refuted, C127_own_names_refuted, C133_nonfinite_refuted, C148_scrape, C149_scope_attributes_refuted, C149_scope_info_once_refuted, C151_exported, C151_windows, C154_all_points_printed_refuted, C158_batches_arrive, C158_log_batches_arrive, C158_logs_arrive, C158_logs_read_back, C158_metrics_arrive, C158_metrics_read_back, C158_negative_zero_threshold, C158_spans_arrive, C158_traces_read_back, C158_values_read_back, C159_error_shown, C159_latency_shown, C159_running_shown, C160_answers_read, C160_decisions, C160_last_answer_in_force, C160_limit_over_changes, C160_nothing_else_read, C161_task_ends_refuted, C162_bound_left_out_refuted, C162_limit_never_applied_refuted, C162_rate_limiting_refuted, C162_type_left_out_refuted, C165_received, C168_points_are_series, C169_keys_refuted, C169_types_refuted, C173_tree_across_services, C174_debug_trace_cut_refuted, C175_scraped, C176_all_shown_refuted, C177_all_read_after_shutdown, C177_spans_read, C177_spans_under_their_tracer, C178_all_read_when_answered, C178_records_read, C178_records_under_their_name, C22_builtin_two_valued, C22_constant_samplers, C22_depends_only_on_parent_and_trace_id, C22_nesting, C22_parent_decides, C22_root_delegates, C23_exact_share, C23_extremes, C23_low_word_only, C23_monotone, C24_C70_remote_sampler_limits, C24_never_too_many, C24_refills_after_a_second, C24_refines_tokens, C28_parent_based_tree, C45_f64_bits, C47_bucket, C47_number_types, C47_validated_boundaries, C48_counts_conserved, C48_limits_hold, C48_scale_is_finest, C48_scale_never_increases_and_totals, C48_sum_min_max, C48_two_buckets_suffice_for_normal_numbers, C49_buckets_exact_up_to_scale_zero, C49_buckets_up_to_log_error, C53_counted_once, C53_one_stream_per_identity, C54_accepted_iff_grammar, C54_invalid_records_nothing, C55_usable_aggregations, C62_metrics, C63_resource_labels, C63_samples, C63_selected_resource_labels, C70_decisions, C70_last_entry_of_operation_wins, C70_rate_update_keeps_tokens, C70_response_installed, C73_aggregation_table, C73_incompatible_records_nothing, C74_single_reader, C76_temporality, C79_metric_scopes, C80_dropped_iff_type_conflict, C80_one_type_and_help, C84_env_sampler, C86_exported_logs_survive, C86_exported_spans_survive, C86_logs_survive, C86_metrics_survive, C86_missing_members, C86_other_forms, C86_spans_survive, C86_unknown_members, C86_values_survive, C98_invalid_parent_is_root_refuted, C99_busy_limiter_starves_refuted, C99_clock_rewind_admits_all_refuted.
