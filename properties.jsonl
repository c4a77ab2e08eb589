{"id": "C01", "title": "Current context follows live guards in any drop order", "statement": "On one thread, after any sequence of Context::attach calls and ContextGuard drops (each guard dropped at most once, in any order), Context::current() is the context attached by the most recently created guard that has not yet been dropped, or the root context if none is left.", "quantifier": "every finite sequence of attach / guard-drop operations on a thread, with any drop order, while fewer than 65534 guards are stacked", "why_tests_cant": "Drop orders grow factorially and the clean-up of out-of-order drops depends on the whole history; a test fixes one order.", "anchors": ["opentelemetry/src/context.rs: Context::attach, ContextGuard::drop, ContextStack::push, ContextStack::pop_id"]}
{"id": "C02", "title": "Attaching beyond the nesting limit is inert", "statement": "When the thread's context stack is full, attach leaves the current context unchanged and the returned guard's drop has no effect on any later current context; no operation sequence can panic, and guard identifiers handed to live guards are never shared.", "quantifier": "every operation sequence, including those that reach and pass the 65535-entry limit", "why_tests_cant": "The limit interacts with slot reuse; only a few boundary traces can be exercised by tests.", "anchors": ["opentelemetry/src/context.rs: ContextStack::push, ContextStack::pop_id, ContextStack::MAX_POS"]}
{"id": "C03", "title": "Polling a future or stream with a context restores the ambient context", "statement": "After poll of a value wrapped by FutureExt::with_context returns, Context::current() is what it was before the poll, no matter which guards the inner future attached and dropped during the poll, provided the inner future leaves none of its own guards alive; during the poll the wrapped context is current at the start.", "quantifier": "every context stack state and every attach/drop behaviour of the inner poll", "why_tests_cant": "The inner code is arbitrary; tests pick one body.", "anchors": ["opentelemetry/src/context/future_ext.rs: WithContext::poll", "opentelemetry/src/context.rs: attach"]}
{"id": "C04", "title": "Context values are persistent and independent per type", "statement": "with_value stores exactly one value for its type and leaves every other type's value, the active span and the suppression flag unchanged; the parent context is unaffected; telemetry suppression and span, once set, are inherited by every context derived from it.", "quantifier": "every chain of with_value / with_span / with_telemetry_suppressed derivations", "why_tests_cant": "Needs to hold for all derivation chains and all value types, not for a chosen pair.", "anchors": ["opentelemetry/src/context.rs: Context::with_value, Context::get, with_telemetry_suppressed, with_synchronized_span"]}
{"id": "C05", "title": "Baggage stays within its size limits", "statement": "A Baggage produced by any sequence of insert, insert_with_metadata, remove and from_iter calls holds at most 64 entries whose keys, values and metadata encode to at most 8192 bytes, has one entry per key, and contains only keys made of permitted ASCII characters.", "quantifier": "every sequence of baggage operations with arbitrary keys, values and metadata", "why_tests_cant": "The limit is tracked incrementally across replace/remove paths; tests cover single inserts.", "anchors": ["opentelemetry/src/baggage.rs: Baggage::insert_with_metadata, Baggage::remove, FromIterator for Baggage"]}
{"id": "C06", "title": "Baggage behaves as a map with rejected writes leaving it unchanged", "statement": "get after a successful insert returns the inserted value and metadata, other keys are unaffected, insert returns the previous value, remove deletes exactly its key; an insert that is rejected (invalid key or limits) changes nothing. Without removals, whether an insert is accepted depends only on the entries present: at most 64 entries and 8192 bytes in total.", "quantifier": "every baggage history and every key, value, metadata", "why_tests_cant": "Acceptance depends on hidden accumulated state; only long histories show drift.", "anchors": ["opentelemetry/src/baggage.rs: Baggage::insert_with_metadata, Baggage::remove, Baggage::get_with_metadata"]}
{"id": "C07", "title": "Clearing baggage removes it from the context", "statement": "For every context, after with_cleared_baggage the context's baggage() is empty, and nothing else in the context has changed.", "quantifier": "every context", "why_tests_cant": "Needs all contexts, in particular those already carrying baggage.", "anchors": ["opentelemetry/src/baggage.rs: BaggageExt::with_cleared_baggage, BaggageExt::baggage"]}
{"id": "C08", "title": "Baggage survives inject then extract", "statement": "Injecting baggage into a carrier and extracting it in another process yields the same keys, values and metadata, for every baggage in which no %XX escape occurs in keys, values and metadata, values and the parts of the metadata between semicolons have no surrounding white space, and metadata holds no comma.", "quantifier": "every baggage reachable through the API whose values and metadata are in the header's representable domain (the exact domain is part of the theorem)", "why_tests_cant": "Percent-encoding, trimming and separators interact on arbitrary Unicode strings.", "anchors": ["opentelemetry-sdk/src/propagation/baggage.rs: BaggagePropagator::inject_context, extract_with_context", "opentelemetry/src/baggage.rs: Baggage"]}
{"id": "C09", "title": "TraceState members are always valid by one fixed grammar", "statement": "Every key and value held by a TraceState that was obtained through from_key_value, from_str, insert or delete satisfies the key and value grammar implemented by the library; constructors return an error exactly when some member violates it; and every key and value of the W3C grammar that the library means to accept (simple keys, tenant keys with system ids of up to 13 characters) is accepted.", "quantifier": "every input list/string and every sequence of insert/delete", "why_tests_cant": "The input language is infinite.", "anchors": ["opentelemetry/src/trace/span_context.rs: TraceState::valid_key, valid_value, from_key_value, insert, delete, from_str"]}
{"id": "C10", "title": "TraceState updates move the key to the front and keep the rest in order", "statement": "insert(k,v) makes (k,v) the first member and keeps all members with other keys in their order; get(k) then returns v; in a state with unique keys delete(k) removes the member of k and keeps the order of the rest, and unique keys stay unique. In a state with repeated keys get returns the first, and insert and delete replace or remove the first.", "quantifier": "every trace state and key/value", "why_tests_cant": "Order preservation is a statement about all lists.", "anchors": ["opentelemetry/src/trace/span_context.rs: TraceState::insert, TraceState::delete, TraceState::get"]}
{"id": "C11", "title": "TraceState header round trip", "statement": "Parsing the header text produced from a valid TraceState returns the same ordered list of members.", "quantifier": "every TraceState obtained through the API (domain conditions on values explicit)", "why_tests_cant": "Separators and padding characters inside values make the inverse property non-obvious for all strings.", "anchors": ["opentelemetry/src/trace/span_context.rs: TraceState::header, TraceState::header_delimited, FromStr for TraceState"]}
{"id": "C12", "title": "Trace and span identifiers round-trip through bytes and hex", "statement": "from_bytes(to_bytes(id)) = id and from_hex(Display(id)) = Ok(id) for every trace and span id; the textual form always has exactly 32 (16) lower-case hex digits and equal text means equal id.", "quantifier": "all 2^128 trace ids and 2^64 span ids", "why_tests_cant": "The identifier space cannot be enumerated.", "anchors": ["opentelemetry/src/trace_context.rs: TraceId, SpanId, to_bytes, from_bytes, from_hex, Display/LowerHex"]}
{"id": "C13", "title": "W3C trace context survives inject then extract", "statement": "For every valid span context, injecting it with TraceContextPropagator and extracting from the resulting carrier yields a remote span context with the same trace id, span id, sampled flag and trace state.", "quantifier": "every valid span context (all ids, all flag bytes, every trace state)", "why_tests_cant": "Infinite domain of ids, flags and states.", "anchors": ["opentelemetry-sdk/src/propagation/trace_context.rs: TraceContextPropagator::inject_context, extract_span_context, extract_with_context"]}
{"id": "C14", "title": "W3C extraction never accepts an invalid identity and never disturbs the context on failure", "statement": "Whatever the carrier contains, extraction either returns a context equal to the given one, or one whose remote span context has non-zero trace and span ids and only the sampled bit possibly set in its flags.", "quantifier": "every carrier content (arbitrary header strings)", "why_tests_cant": "Arbitrary attacker-controlled strings.", "anchors": ["opentelemetry-sdk/src/propagation/trace_context.rs: extract_span_context, extract_with_context"]}
{"id": "C15", "title": "W3C injection emits only well-formed headers", "statement": "If the span context is valid the traceparent value is version 00 with 32 and 16 lower-case hex digits and a 2-digit flags field equal to 00 or 01, and no other header than traceparent and tracestate is written; if it is invalid nothing is written.", "quantifier": "every context", "why_tests_cant": "All ids and flags.", "anchors": ["opentelemetry-sdk/src/propagation/trace_context.rs: inject_context"]}
{"id": "C16", "title": "W3C extraction accepts a precisely known language", "statement": "W3C extraction accepts exactly this language of traceparent headers, after trimming: four parts separated by dashes that from_str_radix reads as hexadecimal numbers, a version of at most 254, a trace id below 2^128 and a span id below 2^64 that are not zero and hold no upper-case letter, flags below 256 and for version 0 at most 2, followed by nothing, a dash, or for other versions anything after a dash; the span context is the one the numbers say. Every header of the strict grammar with non-zero ids and flags 00, 01 or 02 is accepted.", "quantifier": "every header string", "why_tests_cant": "The set of malformed strings is infinite.", "anchors": ["opentelemetry-sdk/src/propagation/trace_context.rs: extract_span_context", "opentelemetry/src/trace_context.rs: TraceId::from_hex, SpanId::from_hex"]}
{"id": "C17", "title": "B3 context survives inject then extract", "statement": "For every valid span context, extracting what the B3 propagator injected restores the trace id, the span id and the B3 state (debug, deferred, sampled, not sampled), with each encoding, in a carrier without stale B3 headers; and extraction accepts exactly the languages characterised for the single and the multiple headers.", "quantifier": "every valid span context and every encoding choice", "why_tests_cant": "Flags, encodings and ids multiply; full identifier space.", "anchors": ["opentelemetry-zipkin/src/propagator/mod.rs: Propagator::inject_context, extract_single_header, extract_multi_header, extract_with_context"]}
{"id": "C18", "title": "B3 injection writes exactly the headers of the configured encoding", "statement": "The B3 propagator writes exactly the headers of a known list for each encoding and context: with the multi-header encoding only x-b3-* headers, with both, both; nothing else in the carrier changes.", "quantifier": "every context and encoding", "why_tests_cant": "All flag combinations and encodings.", "anchors": ["opentelemetry-zipkin/src/propagator/mod.rs: B3Encoding::support, inject_context, fields"]}
{"id": "C19", "title": "Jaeger context survives inject then extract", "statement": "For every valid span context, extracting what the Jaeger propagator injected restores trace id, span id, sampled and debug flags, provided the carrier entries with the baggage prefix form a valid trace state (in particular when there are none).", "quantifier": "every valid span context", "why_tests_cant": "Full identifier space, hex padding rules.", "anchors": ["opentelemetry-jaeger-propagator/src/propagator.rs: Propagator::inject_context, extract_span_context"]}
{"id": "C20", "title": "Extraction never installs an invalid remote parent", "statement": "Whatever the carrier holds, extract_with_context of the W3C and B3 propagators and of composites of safe propagators either leaves the active span as it was or installs a remote span context with non-zero trace id and span id.", "quantifier": "every carrier content, for each propagator", "why_tests_cant": "Arbitrary input strings.", "anchors": ["opentelemetry-zipkin/src/propagator/mod.rs: extract_with_context", "opentelemetry-jaeger-propagator/src/propagator.rs: extract_with_context", "opentelemetry-sdk/src/propagation/trace_context.rs: extract_with_context"]}
{"id": "C21", "title": "A composite propagator applies every member in order", "statement": "inject leaves the carrier as if each member injected in order; extract threads the context through each member in order; its fields are exactly the union of the members' fields; members with disjoint headers and disjoint context slots do not interfere, in any order.", "quantifier": "every list of member propagators, context and carrier", "why_tests_cant": "Quantifies over arbitrary propagators.", "anchors": ["opentelemetry/src/propagation/composite.rs: TextMapCompositePropagator"]}
{"id": "C22", "title": "Sampling decisions are deterministic and parent-based sampling follows the parent", "statement": "The decision of AlwaysOn/AlwaysOff/TraceIdRatioBased/ParentBased depends only on the parent span context and the trace id; ParentBased records a child of a sampled parent and drops the child of an unsampled parent whatever its delegate says, at any nesting, and without an active parent span decides like its delegate; the trace state of the result is that of the parent.", "quantifier": "every sampler built from these constructors to any nesting depth, every parent context and trace id", "why_tests_cant": "Nested samplers form an infinite family.", "anchors": ["opentelemetry-sdk/src/trace/sampler.rs: Sampler::should_sample"]}
{"id": "C23", "title": "Trace-id ratio sampling is consistent and monotone in the ratio", "statement": "For a fixed trace id, a trace sampled at ratio p is sampled at every ratio q >= p; ratio >= 1 samples everything and ratio <= 0 nothing; the decision uses only the low 64 bits of the trace id, and the number of sampled low words is exactly 2*floor(p*2^63) out of 2^64.", "quantifier": "all trace ids and all finite ratios", "why_tests_cant": "2^128 ids and all floating point ratios.", "anchors": ["opentelemetry-sdk/src/trace/sampler.rs: sample_based_on_probability"]}
{"id": "C24", "title": "Rate limiting never admits more than the bucket allows", "statement": "For any sequence of polls with a non-decreasing clock, the number of admitted spans is at most the bucket size plus rate times elapsed seconds; a limiter with positive rate that is not polled for a second admits the next span.", "quantifier": "every sequence of poll times, every rate and bucket size", "why_tests_cant": "Depends on the full history of poll times.", "anchors": ["opentelemetry-sdk/src/trace/sampler/jaeger_remote/rate_limit.rs: LeakyBucket::check_availability"]}
{"id": "C25", "title": "Span collections respect limits and account for every dropped item", "statement": "For any sequence of add_event, set_attribute, add_link calls on a recording span (after construction from any builder), the exported span holds at most the configured number of attributes, events, links and of attributes per event/link, keeps the earliest ones in order, and retained plus reported dropped counts equal the number of items offered.", "quantifier": "every limit configuration, builder content and operation sequence", "why_tests_cant": "Unbounded operation sequences and limits.", "anchors": ["opentelemetry-sdk/src/trace/tracer.rs: SdkTracer::build_recording_span", "opentelemetry-sdk/src/trace/span.rs: add_event_with_timestamp, set_attribute, add_link", "opentelemetry-sdk/src/trace/span_limit.rs"]}
{"id": "C26", "title": "A span ends exactly once and is frozen afterwards", "statement": "However many times end/end_with_timestamp are called and whether or not the span is dropped, each processor receives on_end exactly once per recording span (in processor order), with the data as of the first end; operations after end have no effect; is_recording is false after end; a non-recording span is never delivered.", "quantifier": "every operation sequence on a span followed by drop, and any processor list", "why_tests_cant": "Operation sequences are unbounded.", "anchors": ["opentelemetry-sdk/src/trace/span.rs: ensure_ended_and_exported, Drop for Span, end_with_timestamp"]}
{"id": "C27", "title": "Status changes follow Ok > Error > Unset", "statement": "After any sequence of set_status calls the recorded status is Ok if any call set Ok, otherwise Error if any call set Error, otherwise Unset; the status kept is always the greatest of those set in the derived order.", "quantifier": "every sequence of set_status calls", "why_tests_cant": "All sequences and all description strings.", "anchors": ["opentelemetry-sdk/src/trace/span.rs: set_status", "opentelemetry/src/trace/span.rs: Status"]}
{"id": "C28", "title": "New spans inherit identity from their parent", "statement": "A span started with a parent has the parent's trace id and the parent's span id as parent span id; without parent it gets the builder's or a fresh trace id and no parent; its sampled flag is set iff the sampling decision is record-and-sample; it records iff the decision is not drop; every span of a trace built from one root carries the root's trace id.", "quantifier": "every tree of span creations of any depth and width, every sampler decision", "why_tests_cant": "Trees and id-generator outputs are unbounded.", "anchors": ["opentelemetry-sdk/src/trace/tracer.rs: build_with_context"]}
{"id": "C29", "title": "Recording spans have valid identifiers", "statement": "A span that is recorded below a parent with a valid trace id, or without an active parent, always has a non-zero trace id and span id, given an id generator that returns non-zero ids.", "quantifier": "every parent context and builder", "why_tests_cant": "Parent contexts can come from arbitrary remote input.", "anchors": ["opentelemetry-sdk/src/trace/tracer.rs: build_with_context"]}
{"id": "C30", "title": "Tracer provider shutdown is effective once", "statement": "Over any interleaving of shutdown calls, clones and drops of provider handles and tracers, each processor's shutdown runs exactly once by the time the last handle is gone; later shutdown calls report AlreadyShutdown; after shutdown no span whose end begins later is delivered to processors' on_end and new tracers create non-recording spans; force_flush calls every processor and reports failure iff some processor failed.", "quantifier": "every sequence of provider operations and every list of processors", "why_tests_cant": "Lifecycles interleave arbitrarily.", "anchors": ["opentelemetry-sdk/src/trace/provider.rs: SdkTracerProvider::shutdown, TracerProviderInner::shutdown, Drop, force_flush, tracer_with_scope"]}
{"id": "C31", "title": "SimpleSpanProcessor exports each sampled span once, in order", "statement": "The exporter receives exactly the sampled spans ended, each in its own export call, in the order of on_end.", "quantifier": "every sequence of on_end calls", "why_tests_cant": "All sequences.", "anchors": ["opentelemetry-sdk/src/trace/span_processor.rs: SimpleSpanProcessor::on_end"]}
{"id": "C32", "title": "BatchSpanProcessor never duplicates, reorders or invents spans", "statement": "Under every interleaving of any number of producer threads, the worker thread, flush, shutdown and timer ticks: the concatenation of exported batches is a prefix of the sequence of spans accepted into the queue, every batch has at most max_export_batch_size spans, the queue never exceeds max_queue_size, and every ended span is either exported, still queued, or counted as dropped.", "quantifier": "every interleaving, thread count, queue and batch size", "why_tests_cant": "Schedules are unbounded; races need specific interleavings.", "anchors": ["opentelemetry-sdk/src/trace/span_processor.rs: BatchSpanProcessor::on_end, BatchSpanProcessor::new (worker), get_spans_and_export, export_batch_sync"]}
{"id": "C33", "title": "BatchSpanProcessor force_flush exports one batch and reports its result", "statement": "When BatchSpanProcessor::force_flush returns Ok, the export it made succeeded and passed the exporter min(max_export_batch_size, queued) spans, so everything accepted before it when one batch suffices.", "quantifier": "every interleaving and every number of queued spans", "why_tests_cant": "Depends on queue length at flush time.", "anchors": ["opentelemetry-sdk/src/trace/span_processor.rs: BatchSpanProcessor::force_flush, worker loop, get_spans_and_export"]}
{"id": "C34", "title": "BatchSpanProcessor is quiet after shutdown", "statement": "BatchSpanProcessor::shutdown exports one more batch and answers with its result; after it has returned nothing is exported, spans ended later are rejected, and later shutdown calls return AlreadyShutdown.", "quantifier": "every interleaving and queue content", "why_tests_cant": "Depends on queue content at shutdown.", "anchors": ["opentelemetry-sdk/src/trace/span_processor.rs: BatchSpanProcessor::shutdown, worker loop"]}
{"id": "C35", "title": "Only sampled spans are exported by the batch processor", "statement": "If the sampler never answers RecordOnly, the batch processor exports only sampled spans; recording spans are sampled exactly when the sampler said RecordAndSample.", "quantifier": "every span and schedule", "why_tests_cant": "All sampler decisions.", "anchors": ["opentelemetry-sdk/src/trace/span_processor.rs: BatchSpanProcessor::on_end, SimpleSpanProcessor::on_end", "opentelemetry-sdk/src/trace/span_processor_with_async_runtime.rs: on_end"]}
{"id": "C36", "title": "BatchLogProcessor never duplicates, reorders or invents records", "statement": "Under every interleaving of producers, worker, flush and shutdown: the concatenation of exported batches is a prefix of the sequence of accepted records, each batch has at most max_export_batch_size records, the queue is bounded, and each emitted record is exported, queued, or accounted as dropped.", "quantifier": "every interleaving, thread count, queue and batch size", "why_tests_cant": "Schedules are unbounded.", "anchors": ["opentelemetry-sdk/src/logs/batch_log_processor.rs: BatchLogProcessor::emit, worker loop, get_logs_and_export, export_batch_sync"]}
{"id": "C37", "title": "BatchLogProcessor force_flush exports what is counted", "statement": "BatchLogProcessor::force_flush exports as many records as the counter showed, everything emitted before it when no emit is between its two steps; its answer is that of its last export; late records are rejected after shutdown and the exporter is shut down exactly once.", "quantifier": "every interleaving and every number of queued records", "why_tests_cant": "Depends on counter/queue races.", "anchors": ["opentelemetry-sdk/src/logs/batch_log_processor.rs: force_flush, get_logs_and_export"]}
{"id": "C38", "title": "BatchLogProcessor always processes flush and shutdown requests", "statement": "From every reachable state the worker of a batch processor can take a step, and unless the counter underflowed it finishes its current export in finitely many steps once producers stop, so that pending control messages are handled.", "quantifier": "every interleaving", "why_tests_cant": "Needs a reasoning about all reachable counter values.", "anchors": ["opentelemetry-sdk/src/logs/batch_log_processor.rs: get_logs_and_export, current_batch_size"]}
{"id": "C39", "title": "Logger delivers each record once to every processor, correlated with the active span", "statement": "emit calls each processor exactly once, in order, with the same record; the record's trace context is the explicitly set one, else the active span's ids and flags, else none; observed timestamp is set; nothing is emitted while telemetry is suppressed.", "quantifier": "every record, processor list and context", "why_tests_cant": "All contexts and records.", "anchors": ["opentelemetry-sdk/src/logs/logger.rs: SdkLogger::emit", "opentelemetry-sdk/src/logs/logger_provider.rs"]}
{"id": "C40", "title": "Simple log processor exports nothing after shutdown", "statement": "Before its shutdown the SimpleLogProcessor exports each non-suppressed emit exactly once, in order; an emit that begins after shutdown stored its flag never reaches the exporter.", "quantifier": "every sequence of emit/shutdown", "why_tests_cant": "All sequences.", "anchors": ["opentelemetry-sdk/src/logs/simple_log_processor.rs: emit, shutdown", "opentelemetry-sdk/src/logs/concurrent_log_processor.rs"]}
{"id": "C41", "title": "Log record attributes form an ordered list of any length", "statement": "The attributes read back from a record are exactly those added, in order, for any number of attributes, whether or not they spill out of the inline storage; indexing and iteration agree.", "quantifier": "every sequence of attributes and every inline capacity", "why_tests_cant": "Any length, boundary at the inline capacity.", "anchors": ["opentelemetry-sdk/src/growable_array.rs: GrowableArray", "opentelemetry-sdk/src/logs/record.rs: SdkLogRecord::add_attribute"]}
{"id": "C42", "title": "Cumulative sums equal the sum of the measurements per attribute set", "statement": "After any sequence of measurements, a cumulative collection reports for each distinct attribute set (regardless of order and duplicates) exactly one data point whose value is the sum of the measurements recorded for it, within the cardinality limit.", "quantifier": "every sequence of measurements and attribute lists", "why_tests_cant": "Histories and attribute orders are unbounded.", "anchors": ["opentelemetry-sdk/src/metrics/internal/mod.rs: ValueMap::measure, collect_readonly, sort_and_dedup", "opentelemetry-sdk/src/metrics/internal/sum.rs: Sum"]}
{"id": "C43", "title": "The cardinality limit bounds attribute sets without losing measurements", "statement": "At most limit distinct attribute sets plus one overflow set (plus the empty set) are tracked in a cycle; measurements for further sets are all added to the overflow set, so the grand total over data points is the grand total of measurements.", "quantifier": "every measurement sequence and limit", "why_tests_cant": "Needs unbounded distinct attribute sets.", "anchors": ["opentelemetry-sdk/src/metrics/internal/mod.rs: ValueMap::measure, is_under_cardinality_limit"]}
{"id": "C44", "title": "Delta collections partition the measurements", "statement": "Over any interleaving of measurements and delta collections, for each attribute set the sum of all reported deltas plus what is still pending equals the sum of the measurements; no measurement is reported twice or lost.", "quantifier": "every interleaving of measure and collect", "why_tests_cant": "Interleavings are unbounded.", "anchors": ["opentelemetry-sdk/src/metrics/internal/mod.rs: ValueMap::collect_and_reset", "opentelemetry-sdk/src/metrics/internal/sum.rs: delta"]}
{"id": "C45", "title": "Concurrent float accumulation loses no update", "statement": "With any number of threads adding to the same series concurrently with reads and resets, the value is the result of applying all completed additions once each, in some order.", "quantifier": "every interleaving of the compare-and-swap loops", "why_tests_cant": "Schedules.", "anchors": ["opentelemetry-sdk/src/metrics/internal/mod.rs: F64AtomicTracker::add, get_and_reset_value"]}
{"id": "C46", "title": "A delta collection only reports recorded measurements", "statement": "In a delta collection every data point with attributes comes from a measurement recorded since the previous collection took its values, and so does the point for the empty attribute set unless a measurement without attributes was between its update and its store to has_no_attribute_value at that moment.", "quantifier": "every interleaving of concurrent measure and collect steps", "why_tests_cant": "Race windows.", "anchors": ["opentelemetry-sdk/src/metrics/internal/mod.rs: ValueMap::measure, collect_and_reset"]}
{"id": "C47", "title": "Explicit-bucket histograms count every measurement in the right bucket", "statement": "For sorted bounds without NaN (which views and instruments ensure), bucket i counts exactly the measurements v with bound[i-1] < v <= bound[i]; bucket counts add up to count; sum is that of the measurements, and min and max are those of the measurements for integers and finite floats.", "quantifier": "every list of measurements and every sorted boundary list", "why_tests_cant": "Unbounded data.", "anchors": ["opentelemetry-sdk/src/metrics/internal/histogram.rs: Buckets, HistogramTracker, Histogram::call"]}
{"id": "C48", "title": "Exponential histograms conserve counts within the size limit", "statement": "For any sequence of finite measurements and max_size of at least 3 with max_scale at most 19 (or 20 without subnormal numbers), the number of buckets never exceeds max_size, the scale never increases and is never lower than the recorded values require (at the next finer scale two values of one sign would be too far apart), and zero_count plus positive and negative bucket counts equal count.", "quantifier": "every sequence of measurements, max size and max scale", "why_tests_cant": "Rescaling depends on the whole history.", "anchors": ["opentelemetry-sdk/src/metrics/internal/exponential_histogram.rs: ExpoHistogramDataPoint::record, ExpoBuckets::record, downscale, scale_change"]}
{"id": "C49", "title": "Exponential histogram buckets hold exactly the values of their range", "statement": "At scales up to zero, bucket index i counts exactly the recorded values v with base^i < |v| <= base^(i+1); at positive scales it does so up to the error of the computed logarithm.", "quantifier": "every sequence of measurements", "why_tests_cant": "Rescaling history.", "anchors": ["opentelemetry-sdk/src/metrics/internal/exponential_histogram.rs: get_bin, downscale"]}
{"id": "C50", "title": "Gauges report the last value", "statement": "A collection of a gauge reports for each attribute set the most recently recorded value (since the last collection when delta).", "quantifier": "every sequence of records and collections", "why_tests_cant": "Histories.", "anchors": ["opentelemetry-sdk/src/metrics/internal/last_value.rs: LastValue"]}
{"id": "C51", "title": "Observable counters with delta temporality report differences", "statement": "For attribute lists given sorted and without duplicates, the reported delta of an observable counter is the currently observed value minus the one reported in the previous collection; for a set observed in every collection the deltas add up to the latest observation.", "quantifier": "every sequence of observation cycles", "why_tests_cant": "Histories and attribute orders.", "anchors": ["opentelemetry-sdk/src/metrics/internal/precomputed_sum.rs: PrecomputedSum::delta, cumulative"]}
{"id": "C52", "title": "Collection intervals tile time", "statement": "Successive delta collections of a stream have intervals that start where the previous one ended; cumulative collections all start at the stream's creation time.", "quantifier": "every sequence of collections and clock readings", "why_tests_cant": "Histories.", "anchors": ["opentelemetry-sdk/src/metrics/internal/aggregate.rs: AggregateTimeInitiator"]}
{"id": "C53", "title": "Each measurement is counted once per configured stream", "statement": "However many times an instrument with the same identity is created, each identity has one stream, and every measurement is aggregated exactly once into each distinct output stream, for creations whose matching view streams are coherent (equal normalised identity means equal raw identity, aggregation and compatibility).", "quantifier": "every set of views and instrument creations", "why_tests_cant": "Unbounded view sets and creation orders.", "anchors": ["opentelemetry-sdk/src/metrics/pipeline.rs: Inserter::instrument, cached_aggregator, Resolver::measures"]}
{"id": "C54", "title": "Instrument names and units are accepted exactly per the grammar", "statement": "create succeeds iff the name is non-empty, at most 255 characters, starts with an ASCII letter and continues with letters, digits, '_', '.', '-', '/' and the unit is ASCII of at most 63 characters; otherwise the returned instrument records nothing.", "quantifier": "every name and unit string", "why_tests_cant": "Infinite strings.", "anchors": ["opentelemetry-sdk/src/metrics/meter.rs: validate_instrument_config, validate_instrument_name, validate_instrument_unit"]}
{"id": "C55", "title": "Views apply to exactly the matching instruments and override only what they set", "statement": "A view built by new_view from a criteria name of plain characters, * and ? (without **) matches an instrument iff every non-empty criterion matches, * standing for any text and ? for one character, and the stream takes the non-empty fields of the mask and otherwise those of the instrument.", "quantifier": "every criteria, mask and instrument", "why_tests_cant": "All pattern/name pairs.", "anchors": ["opentelemetry-sdk/src/metrics/view.rs: new_view", "opentelemetry-sdk/src/metrics/instrument.rs: Instrument::matches"]}
{"id": "C56", "title": "Reusing the collection buffer leaks no stale data", "statement": "Collecting into a ResourceMetrics left over from any earlier collection gives the same result as collecting into a fresh one: every instrument that produced data appears once, in order, and nothing else.", "quantifier": "every previous buffer content and pipeline state", "why_tests_cant": "All stale shapes.", "anchors": ["opentelemetry-sdk/src/metrics/pipeline.rs: Pipeline::produce"]}
{"id": "C57", "title": "Periodic reader exports on flush and once more at shutdown", "statement": "Each flush request causes one collect-and-export before it is answered; shutdown performs a final collect-and-export, then shuts the exporter down once; nothing is exported afterwards; empty collections are not exported.", "quantifier": "every sequence of flush, tick and shutdown messages", "why_tests_cant": "Message interleavings.", "anchors": ["opentelemetry-sdk/src/metrics/periodic_reader.rs: worker loop, collect_and_export, force_flush, shutdown"]}
{"id": "C58", "title": "Resource merge is a right-biased union", "statement": "a.merge(b) has b's value for every key of b, a's value for the other keys of a, and nothing else; merge is associative and idempotent on attributes and the empty resource is neutral; the schema URL is that of whichever side has one, and none on conflict.", "quantifier": "all pairs and triples of resources", "why_tests_cant": "All maps.", "anchors": ["opentelemetry-sdk/src/resource/mod.rs: Resource::merge, from_schema_url"]}
{"id": "C59", "title": "Where the service name of the default resource comes from", "statement": "The service.name of the default resource is the one given in OTEL_RESOURCE_ATTRIBUTES if any, else OTEL_SERVICE_NAME if non-empty, else unknown_service; the sdk detectors report the documented attributes.", "quantifier": "every pair of environment values", "why_tests_cant": "All strings.", "anchors": ["opentelemetry-sdk/src/resource/mod.rs: Resource::builder, from_detectors", "opentelemetry-sdk/src/resource/env.rs: EnvResourceDetector, SdkProvidedResourceDetector"]}
{"id": "C60", "title": "OTLP span grouping keeps every span once under its own scope", "statement": "Transforming a batch yields each span exactly once, under the scope it was recorded with (name, version, attributes), with spans of one scope in batch order, and all under the given resource.", "quantifier": "every batch of spans and resource", "why_tests_cant": "All batches and scope collisions.", "anchors": ["opentelemetry-proto/src/transform/trace.rs: group_spans_by_resource_and_scope"]}
{"id": "C61", "title": "OTLP log grouping keeps every record under its target", "statement": "Transforming a batch of logs yields each record exactly once, in batch order, in one group per target or, without target, name of the instrumentation scope.", "quantifier": "every batch of logs", "why_tests_cant": "All batches.", "anchors": ["opentelemetry-proto/src/transform/logs.rs: group_logs_by_resource_and_scope"]}
{"id": "C62", "title": "OTLP encoding preserves values", "statement": "Every attribute value, log body of any nesting, identifier, time between the epoch and 2^64 ns, and metric number below 2^63 can be recovered from the OTLP message made of it, up to the element type of empty arrays.", "quantifier": "every value, including arbitrarily nested log bodies and all 64-bit numbers", "why_tests_cant": "Arbitrary nesting; full 64-bit ranges.", "anchors": ["opentelemetry-proto/src/transform/common.rs: From<Value> for AnyValue, to_nanos", "opentelemetry-proto/src/transform/logs.rs: From<LogsAnyValue> for Value", "opentelemetry-proto/src/transform/metrics.rs: From<u64> for number_data_point::Value"]}
{"id": "C63", "title": "Prometheus names and labels are valid and histogram buckets cumulative", "statement": "For every accepted instrument name (and every non-empty ASCII name) and valid namespace, the exported metric name matches [a-zA-Z_:][a-zA-Z0-9_:]* with the documented unit and counter suffixes; labels are sorted and distinct, keep every value, and their names match [a-zA-Z_][a-zA-Z0-9_]* for keys that start with a letter or underscore and hold no colon; bucket counts are cumulative, non-decreasing and bounded by the count.", "quantifier": "every metric name, attribute set and histogram", "why_tests_cant": "All strings.", "anchors": ["opentelemetry-prometheus/src/utils.rs: sanitize_name, sanitize_prom_kv", "opentelemetry-prometheus/src/lib.rs: get_attrs, add_histogram_metric"]}
{"id": "C64", "title": "Equal attributes hash equally and attribute equality is an equivalence", "statement": "KeyValue and InstrumentationScope equality is symmetric and transitive, reflexive without NaN, and equal values feed the same data to any hasher unless they hold zeros of both signs; scope equality ignores attribute order when keys are distinct.", "quantifier": "all values", "why_tests_cant": "All float bit patterns and attribute lists.", "anchors": ["opentelemetry/src/common.rs: PartialEq/Eq/Hash for KeyValue, InstrumentationScope"]}
{"id": "C65", "title": "OTLP exporter configuration precedence", "statement": "Endpoint and timeout: programmatic configuration wins over the signal-specific variable, which wins over the generic variable, which wins over the default; the signal path is appended only to the generic endpoint, with exactly one slash. Header strings are split and percent-decoded as documented, malformed members are skipped, and the final header map is that of the variable in force over the headers given. For gRPC all valid values the variable in force gives under a name replace those configured, and every configured value is sent. An HTTP request carries each configured header and the content type of its body unless a configured header has that name.", "quantifier": "every combination of set/unset/invalid values", "why_tests_cant": "Combinations and strings.", "anchors": ["opentelemetry-otlp/src/exporter/mod.rs: resolve_timeout, url_decode, parse_header_string", "opentelemetry-otlp/src/exporter/http/mod.rs: resolve_http_endpoint, build_endpoint_uri", "opentelemetry-otlp/src/exporter/tonic/mod.rs: with_metadata, merge_metadata_with_headers_from_env, parse_headers_from_env"]}
{"id": "C66", "title": "Async-runtime batch processors export in message order and flush completely", "statement": "For the runtime-based batch span and log processors: exported batches concatenate to the accepted records in order, no batch exceeds max_export_batch_size, and a flush or shutdown request exports every record accepted before it prior to answering.", "quantifier": "every message sequence and batch size", "why_tests_cant": "All sequences.", "anchors": ["opentelemetry-sdk/src/trace/span_processor_with_async_runtime.rs: BatchSpanProcessorInternal::process_message, flush, export", "opentelemetry-sdk/src/logs/log_processor_with_async_runtime.rs: worker loop"]}
{"id": "C67", "title": "Baggage text form reads back", "statement": "The Display text of a baggage, given to the baggage extractor as header, yields the same keys, values and metadata; values may contain any characters including '%' and separators.", "quantifier": "every baggage reachable through the API whose values have no surrounding white space and whose keys/metadata contain no %XX, and every iteration order of the hash map", "why_tests_cant": "Escaping of arbitrary Unicode values.", "anchors": ["opentelemetry/src/baggage.rs: Display for Baggage, encode", "opentelemetry-sdk/src/propagation/baggage.rs: extract_with_context"]}
{"id": "C68", "title": "Every header a propagator writes is announced by fields()", "statement": "For every context and carrier, inject changes only carrier entries whose name is listed by fields(): for W3C, baggage, B3 except the single-header encoding, Jaeger with a header without surrounding white space, and composites of propagators with this property.", "quantifier": "every context, carrier, propagator configuration, and list of member propagators", "why_tests_cant": "Arbitrary carriers, contexts, configurations and compositions.", "anchors": ["opentelemetry-sdk/src/propagation/trace_context.rs: fields, inject_context", "opentelemetry-sdk/src/propagation/baggage.rs: fields, inject_context", "opentelemetry-zipkin/src/propagator/mod.rs: fields, inject_context", "opentelemetry-jaeger-propagator/src/propagator.rs: fields, with_custom_header_and_baggage", "opentelemetry/src/propagation/composite.rs: fields"]}
{"id": "C69", "title": "The telemetry API can be used inside callbacks, and an active span ends with the last context that holds it", "statement": "A callback (sampler, span processor, closure given to map_current or get_active_span, receiver of internal logs) that uses the context and tracing API does not make the thread panic as long as span-end callbacks and log receivers leave the current context alone and the other callbacks attach nothing; when callbacks only read the context a panic needs a span that is ended by a guard drop. A span put in a context is handed to the processors exactly once: when it is ended by hand, or else exactly when the last context holding it is gone, whether guards are dropped in order or not.", "quantifier": "all programs of nested API calls, all callbacks, all orders of dropping guards and contexts, runs of any length", "why_tests_cant": "Tests call one API inside one callback; the panics depend on which borrow is open on the thread while a callback, possibly several levels down, runs.", "anchors": ["opentelemetry/src/context.rs:133-147", "opentelemetry/src/context.rs:325-332", "opentelemetry/src/context.rs:463-590", "opentelemetry/src/trace/context.rs:270-367", "opentelemetry/src/trace/tracer.rs:134-215", "opentelemetry-sdk/src/trace/span.rs:200-247"]}
{"id": "C70", "title": "The Jaeger remote sampler applies the latest usable strategy", "statement": "Each response with a usable strategy is installed (per-operation before rate limit before probability); a new rate for a running limiter keeps its tokens; without a strategy the default sampler decides.", "quantifier": "every previous strategy and every response", "why_tests_cant": "All combinations of responses and states over time.", "anchors": ["opentelemetry-sdk/src/trace/sampler/jaeger_remote/sampling_strategy.rs: Inner::update, init_strategy, should_sample, PerOperationStrategies"]}
{"id": "C71", "title": "A batch processor never loses its wake-up", "statement": "Whenever export_message_sent is set, a wake-up message is queued or about to be sent, or the worker is about to clear the flag; hence a full batch arriving while the flag is down always sends a wake-up, and the processors never stop exporting on size until the next timer because of a stale flag.", "quantifier": "every interleaving of producers, worker, flush and shutdown", "why_tests_cant": "A lost wake-up needs one particular interleaving of three atomics and two channels.", "anchors": ["opentelemetry-sdk/src/trace/span_processor.rs: BatchSpanProcessor::on_end (export_spans_message_sent)", "opentelemetry-sdk/src/logs/batch_log_processor.rs: emit (export_log_message_sent)"]}
{"id": "C73", "title": "An instrument is aggregated the way its kind and views select, and an incompatible choice records nothing", "statement": "Without a view an instrument uses its kind's default aggregation (sum for counters, explicit histogram for histograms, last value for gauges); a view's aggregation is used instead when the kind supports it; when it does not, the instrument records nothing rather than aggregating wrongly.", "quantifier": "every instrument kind, aggregation, view list and sequence of creations and measurements", "why_tests_cant": "The table is crossed with every view list, cache state and creation order.", "anchors": ["opentelemetry-sdk/src/metrics/pipeline.rs: default_aggregation_selector, aggregate_fn, is_aggregator_compatible, Inserter::instrument", "opentelemetry-sdk/src/metrics/meter.rs: create_counter"]}
{"id": "C74", "title": "Observations made during a collection are reported by it", "statement": "With one reader, the values observed by callbacks during a collection enter the aggregation of that reader, once.", "quantifier": "every number of readers and every sequence of creations, measurements and collections", "why_tests_cant": "Only shows with several readers whose collections interleave.", "anchors": ["opentelemetry-sdk/src/metrics/pipeline.rs: Pipelines::register_callback, Pipeline::produce", "opentelemetry-sdk/src/metrics/instrument.rs: Observable::observe", "opentelemetry-sdk/src/metrics/meter.rs: create_observable_counter"]}
{"id": "C75", "title": "Reported time windows tile for delta and share one start for cumulative instruments", "statement": "The data an instrument reports covers the window from its previous collection (or its creation) to now when it is delta, and from its creation to now otherwise, whatever buffer the data is written into.", "quantifier": "every sequence of measurements, collections, buffers and clock readings", "why_tests_cant": "Unbounded collection histories with buffers of every previous content.", "anchors": ["opentelemetry-sdk/src/metrics/internal/aggregate.rs: AggregateTimeInitiator", "opentelemetry-sdk/src/metrics/internal/sum.rs: Sum::delta, Sum::cumulative"]}
{"id": "C76", "title": "The temporality preference is applied per instrument kind", "statement": "With a cumulative preference every instrument is cumulative; with a delta preference all but up-down counters are delta; with low memory only synchronous counters and histograms are delta; an up-down counter is cumulative under every preference.", "quantifier": "every instrument kind and preference", "why_tests_cant": "Needs the whole table joined with the aggregator that is built.", "anchors": ["opentelemetry-sdk/src/metrics/instrument.rs: InstrumentKind::temporality_preference", "opentelemetry-sdk/src/metrics/pipeline.rs: cached_aggregator, aggregate_fn"]}
{"id": "C77", "title": "The meter provider shuts each reader down once and hands out one meter per scope", "statement": "Concurrent shutdowns and drops shut every reader down exactly once and report repeats; a flush asks every reader once unless the provider is shut down; equal scopes share a meter, different ones do not, and after shutdown meters are no-ops; a manual reader yields nothing after shutdown.", "quantifier": "every interleaving of shutdown, flush, clone and drop, every sequence of meter requests", "why_tests_cant": "Interleavings and request sequences are unbounded.", "anchors": ["opentelemetry-sdk/src/metrics/meter_provider.rs: force_flush, shutdown_with_timeout, Drop, meter_with_scope", "opentelemetry-sdk/src/metrics/pipeline.rs: Pipelines::force_flush, Pipelines::shutdown", "opentelemetry-sdk/src/metrics/manual_reader.rs: collect, shutdown_with_timeout"]}
{"id": "C78", "title": "OTEL_RESOURCE_ATTRIBUTES gives exactly the attributes written in it", "statement": "For any value of OTEL_RESOURCE_ATTRIBUTES, read as comma separated entries of the form key=value with optional white space around keys and values, EnvResourceDetector reports for each key the value of its last entry (everything after the first '=', trimmed) and reports no attribute that is not written in the list; entries without '=' and a trailing comma have no effect.", "quantifier": "for all strings (every string is shown to be such a list) and all keys", "why_tests_cant": "the tests check two fixed strings; white space, '=' inside values, repeated keys, malformed entries and trailing commas can be combined without bound", "anchors": ["opentelemetry-sdk/src/resource/env.rs:20-70"]}
{"id": "C79", "title": "Which schema URL reaches the OTLP receiver", "statement": "For metrics, and for spans and logs converted one at a time, the OTLP scope entry carries the schema URL of the instrumentation scope; for grouped spans and logs it carries the schema URL of the resource.", "quantifier": "all batches, resources and scopes", "why_tests_cant": "needs every combination of resource and scope schema URLs; existing tests set neither", "anchors": ["opentelemetry-proto/src/transform/trace.rs:153-189", "opentelemetry-proto/src/transform/logs.rs:167-217", "opentelemetry-proto/src/transform/metrics.rs:130-142"]}
{"id": "C80", "title": "A Prometheus family keeps one type and one help text", "statement": "Over all scrapes of one exporter, families exported under the same name (other than target_info and otel_scope_info) have the same type and the same help text, those of the first metric collected under it, and a metric is withheld only for a type conflict.", "quantifier": "all sequences of collected metrics, scopes, configurations and scrapes", "why_tests_cant": "the type and help depend on everything scraped before; tests scrape one or two fixed sets", "anchors": ["opentelemetry-prometheus/src/lib.rs:285-392", "opentelemetry-prometheus/src/lib.rs:427-460"]}
{"id": "C81", "title": "OTLP exporters report success for accepted requests", "statement": "The export of an OTLP exporter returns Ok exactly when a request was sent and the collector accepted it (2xx, or gRPC status 0), but for metrics over HTTP, which do not look at the status. Once shutdown has returned, HTTP log exporters and metric exporters send nothing more and every later export fails.", "quantifier": "for every transport, signal, sequence of exports and shutdowns, and every answer of the collector", "why_tests_cant": "Tests exercise a few status codes on one signal; the claim ranges over every combination of transport, signal, status and call sequence.", "anchors": ["opentelemetry-otlp/src/exporter/http/metrics.rs", "opentelemetry-otlp/src/exporter/http/trace.rs", "opentelemetry-otlp/src/exporter/tonic/logs.rs", "opentelemetry-otlp/src/span.rs"]}
{"id": "C82", "title": "Baggage headers of other W3C implementations are read as the grammar means them", "statement": "For every baggage header following the W3C grammar with distinct keys, within 64 members and 8192 bytes, with values without = and keys without %XX (and values not beginning or ending with encoded white space), extraction yields exactly the entries the header means: white space around parts is ignored, values are percent-decoded in either case, properties become the metadata. Members without = are skipped without disturbing the others.", "quantifier": "for every header generated by the grammar, of any number of members, white space, escapes and properties", "why_tests_cant": "Tests list a few headers; the claim is about the whole language of the grammar.", "anchors": ["opentelemetry-sdk/src/propagation/baggage.rs"]}
{"id": "C83", "title": "Context travels unchanged through HTTP headers", "statement": "A header set with HeaderInjector is found by HeaderExtractor under its name in any case, other headers are untouched, and no value can introduce a control byte. Injecting into HTTP headers and extracting on the other side gives what the propagator gives over a map: B3 and Jaeger contexts arrive, and so do W3C contexts and baggage whose trace state values and metadata are printable ASCII.", "quantifier": "for every context, header map, header name and value", "why_tests_cant": "Tests set and read one header; the claim ranges over all names, values, prior headers and propagators.", "anchors": ["opentelemetry-http/src/lib.rs"]}
{"id": "C84", "title": "Configuration: program over environment over default", "statement": "The tracer provider and the two batch processors use, for every numeric setting, the last value the program gave, else the environment variable if it holds a valid number, else the documented default (the batch size of the span processor limited by the queue size known when it is read); invalid or too large numbers are the same as no variable; a batch never exceeds the queue; OTEL_TRACES_SAMPLER selects a sampler whose decisions are the documented ones (unknown, unsupported or missing name: follow the parent, sample roots), and a sampler given by the program wins.", "quantifier": "for all environments (every variable with any text), all sequences of builder calls in any order, all parents and trace ids", "why_tests_cant": "settings interact (a queue size bounds the batch size, the order of calls, environment against program); tests set a few variables to a few values with a fixed call order", "anchors": ["opentelemetry-sdk/src/trace/config.rs:29-136", "opentelemetry-sdk/src/trace/provider.rs:349-395", "opentelemetry-sdk/src/trace/span_processor.rs:690-851", "opentelemetry-sdk/src/logs/batch_log_processor.rs:600-733"]}
{"id": "C85", "title": "Async periodic reader: flush and shutdown export before they answer", "statement": "With the async-runtime periodic reader, an accepted force_flush or shutdown that returns success has had one whole collect-and-export of its own, an error means a failed one or a reader that was shut down; shutdown makes a last collect-and-export, shuts the exporter down once, and nothing is exported, accepted or collected after it returned; a call refused at once is refused because of shutdown or because the channel is full; every accepted call returns once the reader belongs to a provider.", "quantifier": "for all interleavings of callers, ticks, registration and the worker, all outcomes of collections and exports", "why_tests_cant": "tests run one schedule of the runtime with one or two calls; the guarantees concern concurrent calls of flush, shutdown and collect at any point of a collection or export", "anchors": ["opentelemetry-sdk/src/metrics/periodic_reader_with_async_runtime.rs:96-440"]}
{"id": "C86", "title": "OTLP/JSON: a written request reads back as the same request", "statement": "Writing an OTLP request (spans, logs or metrics) with finite floats and non-empty values as JSON and reading it back gives the same request, whatever its values, nesting, attributes, ids and times; ids are lower-case hexadecimal of their bytes, times and integer attributes are decimal strings without loss, byte values are RFC 4648 base64; integers may also be read from numbers and ids from upper case.", "quantifier": "for all requests whose values are in the range of their types, any nesting depth, any number of resources, scopes and items; for all batches exported by the SDK", "why_tests_cant": "tests compare a few fixed documents; the property is about every value, nesting and length (base64 has three tail cases, decimals have sign and range limits, serde's flattening swallows errors)", "anchors": ["opentelemetry-proto/src/proto.rs:5-191", "opentelemetry-proto/src/proto/tonic/opentelemetry.proto.common.v1.rs:8-86", "opentelemetry-proto/src/proto/tonic/opentelemetry.proto.trace.v1.rs:74-340", "opentelemetry-proto/src/proto/tonic/opentelemetry.proto.logs.v1.rs:74-195", "opentelemetry-proto/src/proto/tonic/opentelemetry.proto.metrics.v1.rs:40-800", "opentelemetry-proto/tests/grpc_build.rs:26-125"]}
{"id": "C87", "title": "Zipkin spans carry what the OpenTelemetry span says", "statement": "Every export of the Zipkin exporter sends one POST whose JSON array has one entry per span in batch order; its ids read back as the ids of the span, its times are the times in whole microseconds, it has one annotation per event, and each tag is the last attribute of that key, except for the reserved tags otel.library.name, otel.library.version, otel.status_code and error, which describe scope and status. The export succeeds exactly when the collector answers 2xx. Endpoint and timeout come from the program, else a non-empty environment variable, else the default.", "quantifier": "all batches, spans, attributes, events, hash map orders, collector answers and environments", "why_tests_cant": "Tests cover one span per status; the tag rules interact for any combination of user keys, scope, status and hash map order.", "anchors": ["opentelemetry-zipkin/src/exporter/model/mod.rs:33-117", "opentelemetry-zipkin/src/exporter/model/span.rs", "opentelemetry-zipkin/src/exporter/model/annotation.rs", "opentelemetry-zipkin/src/exporter/mod.rs:121-140", "opentelemetry-zipkin/src/exporter/uploader.rs", "opentelemetry-zipkin/src/exporter/env.rs"]}
{"id": "C88", "title": "The log and tracing bridges hand over every record and value unchanged", "statement": "A record logged through the log bridge or the tracing layer reaches every processor of the provider once with the severity number and name of its level, its message as body, its target (and event name), one attribute per field in field order, and the active span of the context; nothing is emitted when telemetry is suppressed or no processor is interested. An integer of any width is found again in its attribute. A value given to serde is dropped as a whole exactly when one of its parts fails to serialize, counts as absent exactly when it is unit or none under any wrappers, keeps the order of sequences and the last value of every key, and every AnyValue written in its natural form comes out as itself.", "quantifier": "all levels, messages, field lists, contexts, processors, and all values of any depth given to serde", "why_tests_cant": "Tests log one record with one value of each type; nesting, repeated keys, nulls and failures combine without bound.", "anchors": ["opentelemetry-appender-log/src/lib.rs:122-770", "opentelemetry-appender-tracing/src/layer.rs:12-280"]}
{"id": "C89", "title": "Removing a baggage entry gives its space back", "statement": "Whether an insert into baggage is accepted depends only on the entries present, so that removing an entry makes room for another of the same size.", "quantifier": "every baggage history and every key, value, metadata", "why_tests_cant": "Tests insert into fresh baggage; the claim is about histories with removals.", "anchors": ["opentelemetry/src/baggage.rs: Baggage::insert_with_metadata, Baggage::remove, Baggage::get_with_metadata"]}
{"id": "C90", "title": "Baggage values survive whatever characters they hold", "statement": "Injecting baggage and extracting it yields the same value for every value string.", "quantifier": "every baggage reachable through the API whose values and metadata are in the header's representable domain (the exact domain is part of the theorem)", "why_tests_cant": "Tests use a handful of values without percent signs.", "anchors": ["opentelemetry-sdk/src/propagation/baggage.rs: BaggagePropagator::inject_context, extract_with_context", "opentelemetry/src/baggage.rs: Baggage"]}
{"id": "C91", "title": "TraceState accepts exactly the documented W3C grammar", "statement": "Every key and value held by a TraceState satisfies the W3C grammar the documentation refers to, and every member of that grammar is accepted.", "quantifier": "every input list/string and every sequence of insert/delete", "why_tests_cant": "Tests try a few keys; the claim ranges over all strings.", "anchors": ["opentelemetry/src/trace/span_context.rs: TraceState::valid_key, valid_value, from_key_value, insert, delete, from_str"]}
{"id": "C92", "title": "After delete(k) a TraceState has no member k", "statement": "For every TraceState, get(k) returns nothing after delete(k).", "quantifier": "every trace state and key/value", "why_tests_cant": "Tests use states with distinct keys.", "anchors": ["opentelemetry/src/trace/span_context.rs: TraceState::insert, TraceState::delete, TraceState::get"]}
{"id": "C93", "title": "W3C extraction accepts exactly the traceparent grammar", "statement": "extract accepts a version-00 traceparent if and only if it is 2-32-16-2 lower-case hex digits separated by dashes.", "quantifier": "every header string", "why_tests_cant": "Tests list some good and bad headers; the claim ranges over all strings.", "anchors": ["opentelemetry-sdk/src/propagation/trace_context.rs: extract_span_context", "opentelemetry/src/trace_context.rs: TraceId::from_hex, SpanId::from_hex"]}
{"id": "C94", "title": "B3 keeps the sampled bit of debug spans and is not confused by old headers", "statement": "The trace flags of a span context survive a B3 round trip whatever the carrier held before.", "quantifier": "every valid span context and every encoding choice", "why_tests_cant": "Tests inject into empty carriers.", "anchors": ["opentelemetry-zipkin/src/propagator/mod.rs: Propagator::inject_context, extract_single_header, extract_multi_header, extract_with_context"]}
{"id": "C95", "title": "The B3 single-header encoding writes only the b3 header", "statement": "With the single-header encoding, inject writes b3 and no x-b3-* header.", "quantifier": "every context and encoding", "why_tests_cant": "Tests look for the expected headers, not for others.", "anchors": ["opentelemetry-zipkin/src/propagator/mod.rs: B3Encoding::support, inject_context, fields"]}
{"id": "C96", "title": "Jaeger context survives whatever other headers the carrier holds", "statement": "Extracting what the Jaeger propagator injected restores the span context for every carrier.", "quantifier": "every valid span context", "why_tests_cant": "Tests inject into empty carriers.", "anchors": ["opentelemetry-jaeger-propagator/src/propagator.rs: Propagator::inject_context, extract_span_context"]}
{"id": "C97", "title": "Jaeger extraction never installs an invalid remote parent", "statement": "Whatever the carrier holds, the Jaeger propagator either leaves the active span as it was or installs a remote span context with non-zero ids.", "quantifier": "every carrier content, for each propagator", "why_tests_cant": "Tests do not feed all-zero ids.", "anchors": ["opentelemetry-zipkin/src/propagator/mod.rs: extract_with_context", "opentelemetry-jaeger-propagator/src/propagator.rs: extract_with_context", "opentelemetry-sdk/src/propagation/trace_context.rs: extract_with_context"]}
{"id": "C98", "title": "A parent with an invalid span context counts as no parent", "statement": "ParentBased treats a parent whose span context is invalid like a missing parent, as documented for root spans.", "quantifier": "every sampler built from these constructors to any nesting depth, every parent context and trace id", "why_tests_cant": "Tests use valid parents or none.", "anchors": ["opentelemetry-sdk/src/trace/sampler.rs: Sampler::should_sample"]}
{"id": "C99", "title": "A rate limiter keeps admitting spans at its rate", "statement": "A rate limiter with positive rate keeps admitting spans at about its rate however often it is polled, and never admits more, whatever the clock does.", "quantifier": "every sequence of poll times, every rate and bucket size", "why_tests_cant": "Tests poll a few times with convenient clocks.", "anchors": ["opentelemetry-sdk/src/trace/sampler/jaeger_remote/rate_limit.rs: LeakyBucket::check_availability"]}
{"id": "C100", "title": "The last error description is kept", "statement": "Among set_status calls with Error, the description of the last one is kept.", "quantifier": "every sequence of set_status calls", "why_tests_cant": "Tests set one description.", "anchors": ["opentelemetry-sdk/src/trace/span.rs: set_status", "opentelemetry/src/trace/span.rs: Status"]}
{"id": "C101", "title": "Recording spans always have valid identifiers", "statement": "A span that is delivered to processors always has a non-zero trace id and span id, given an id generator that returns non-zero ids.", "quantifier": "every parent context and builder", "why_tests_cant": "Tests use valid parents.", "anchors": ["opentelemetry-sdk/src/trace/tracer.rs: build_with_context"]}
{"id": "C102", "title": "No span reaches a processor once provider shutdown has returned", "statement": "Once TracerProvider::shutdown has returned, no on_end reaches a processor.", "quantifier": "every sequence of provider operations and every list of processors", "why_tests_cant": "The window is a few instructions wide; tests do not schedule it.", "anchors": ["opentelemetry-sdk/src/trace/provider.rs: SdkTracerProvider::shutdown, TracerProviderInner::shutdown, Drop, force_flush, tracer_with_scope"]}
{"id": "C103", "title": "BatchSpanProcessor force_flush exports everything accepted before it", "statement": "When force_flush returns Ok, every span whose on_end completed before the call and that was not dropped has been passed to the exporter.", "quantifier": "every interleaving and every number of queued spans", "why_tests_cant": "Tests queue fewer spans than a batch.", "anchors": ["opentelemetry-sdk/src/trace/span_processor.rs: BatchSpanProcessor::force_flush, worker loop, get_spans_and_export"]}
{"id": "C104", "title": "BatchSpanProcessor shutdown drains the queue and shuts the exporter down", "statement": "When shutdown returns Ok, all accepted spans have been exported and the shutdown of the exporter has been called exactly once.", "quantifier": "every interleaving and queue content", "why_tests_cant": "Tests queue fewer spans than a batch and use exporters without shutdown effects.", "anchors": ["opentelemetry-sdk/src/trace/span_processor.rs: BatchSpanProcessor::shutdown, worker loop"]}
{"id": "C105", "title": "Only sampled spans are exported by the batch processor", "statement": "A span whose context is not sampled is never passed to the exporter by the batch span processor.", "quantifier": "every span and schedule", "why_tests_cant": "Tests use built-in samplers, which never answer RecordOnly.", "anchors": ["opentelemetry-sdk/src/trace/span_processor.rs: BatchSpanProcessor::on_end, SimpleSpanProcessor::on_end", "opentelemetry-sdk/src/trace/span_processor_with_async_runtime.rs: on_end"]}
{"id": "C106", "title": "BatchLogProcessor force_flush exports everything emitted before it", "statement": "When force_flush returns Ok, every record whose emit completed before the call and that was not dropped has been passed to the exporter, and every export of the flush succeeded.", "quantifier": "every interleaving and every number of queued records", "why_tests_cant": "Needs an interleaving inside emit, or a failing exporter among several batches.", "anchors": ["opentelemetry-sdk/src/logs/batch_log_processor.rs: force_flush, get_logs_and_export"]}
{"id": "C107", "title": "A log batch processor always answers flush", "statement": "From every reachable state, once producers stop, a force_flush of the BatchLogProcessor is answered.", "quantifier": "every interleaving", "why_tests_cant": "Needs an interleaving of emit and the worker.", "anchors": ["opentelemetry-sdk/src/logs/batch_log_processor.rs: get_logs_and_export, current_batch_size"]}
{"id": "C108", "title": "Simple log processors export nothing once shutdown has returned", "statement": "Once shutdown of a simple log processor has returned, nothing reaches its exporter.", "quantifier": "every sequence of emit/shutdown", "why_tests_cant": "Needs an interleaving, or the concurrent processor.", "anchors": ["opentelemetry-sdk/src/logs/simple_log_processor.rs: emit, shutdown", "opentelemetry-sdk/src/logs/concurrent_log_processor.rs"]}
{"id": "C109", "title": "A delta collection never reports an empty point", "statement": "A data point for the empty attribute set appears in a delta collection only if some measurement without attributes was recorded since the previous collection took its values.", "quantifier": "every interleaving of concurrent measure and collect steps", "why_tests_cant": "Needs an interleaving of two instructions with a collection.", "anchors": ["opentelemetry-sdk/src/metrics/internal/mod.rs: ValueMap::measure, collect_and_reset"]}
{"id": "C110", "title": "Histogram minimum and maximum hold for all floats", "statement": "min and max of a histogram point are the least and the greatest measurement, infinite ones included.", "quantifier": "every list of measurements and every sorted boundary list", "why_tests_cant": "Tests record finite values.", "anchors": ["opentelemetry-sdk/src/metrics/internal/histogram.rs: Buckets, HistogramTracker, Histogram::call"]}
{"id": "C111", "title": "Exponential histograms take every configuration", "statement": "For every accepted max_size and max_scale, and every finite double, recording neither loses a measurement nor panics.", "quantifier": "every sequence of measurements, max size and max scale", "why_tests_cant": "Tests do not record subnormal and maximal doubles together.", "anchors": ["opentelemetry-sdk/src/metrics/internal/exponential_histogram.rs: ExpoHistogramDataPoint::record, ExpoBuckets::record, downscale, scale_change"]}
{"id": "C112", "title": "Exponential histogram buckets are exact at every scale", "statement": "At every scale, bucket index i counts exactly the recorded values v with base^i < |v| <= base^(i+1).", "quantifier": "every sequence of measurements", "why_tests_cant": "Tests try values away from boundaries.", "anchors": ["opentelemetry-sdk/src/metrics/internal/exponential_histogram.rs: get_bin, downscale"]}
{"id": "C113", "title": "Deltas of an observable counter always add up to the latest observation", "statement": "For each attribute set the deltas reported by an observable counter add up to the latest observation, whichever collections observed it and in whatever order its attributes were given.", "quantifier": "every sequence of observation cycles", "why_tests_cant": "Tests observe the same sets in the same order each time.", "anchors": ["opentelemetry-sdk/src/metrics/internal/precomputed_sum.rs: PrecomputedSum::delta, cumulative"]}
{"id": "C114", "title": "Each measurement is counted once whatever views match", "statement": "Whatever views match an instrument, every measurement is aggregated exactly once into each distinct output stream.", "quantifier": "every set of views and instrument creations", "why_tests_cant": "Tests use one view at a time.", "anchors": ["opentelemetry-sdk/src/metrics/pipeline.rs: Inserter::instrument, cached_aggregator, Resolver::measures"]}
{"id": "C115", "title": "View criteria mean what they say for every pattern", "statement": "A view matches an instrument iff every non-empty criterion matches, for every criteria name and for criteria with scope attributes.", "quantifier": "every criteria, mask and instrument", "why_tests_cant": "Tests use simple names.", "anchors": ["opentelemetry-sdk/src/metrics/view.rs: new_view", "opentelemetry-sdk/src/metrics/instrument.rs: Instrument::matches"]}
{"id": "C116", "title": "OTEL_SERVICE_NAME has priority", "statement": "If OTEL_SERVICE_NAME is set and non-empty, the service.name of the default resource is that value, whatever OTEL_RESOURCE_ATTRIBUTES contains.", "quantifier": "every pair of environment values", "why_tests_cant": "Tests set one of the two variables.", "anchors": ["opentelemetry-sdk/src/resource/mod.rs: Resource::builder, from_detectors", "opentelemetry-sdk/src/resource/env.rs: EnvResourceDetector, SdkProvidedResourceDetector"]}
{"id": "C117", "title": "OTLP log groups carry the whole instrumentation scope", "statement": "Each exported log record is found under a scope entry with the name, version and attributes of its instrumentation scope.", "quantifier": "every batch of logs", "why_tests_cant": "Tests look at scope names.", "anchors": ["opentelemetry-proto/src/transform/logs.rs: group_logs_by_resource_and_scope"]}
{"id": "C118", "title": "OTLP encoding preserves every value", "statement": "Conversion of attribute values, times and metric numbers to OTLP messages is injective on all values.", "quantifier": "every value, including arbitrarily nested log bodies and all 64-bit numbers", "why_tests_cant": "Tests convert ordinary values.", "anchors": ["opentelemetry-proto/src/transform/common.rs: From<Value> for AnyValue, to_nanos", "opentelemetry-proto/src/transform/logs.rs: From<LogsAnyValue> for Value", "opentelemetry-proto/src/transform/metrics.rs: From<u64> for number_data_point::Value"]}
{"id": "C119", "title": "Prometheus names and labels are always valid and unique", "statement": "Every exported metric name and label name is valid in Prometheus and label names are unique per point, whatever names views, namespaces and attributes have.", "quantifier": "every metric name, attribute set and histogram", "why_tests_cant": "Tests use a handful of names.", "anchors": ["opentelemetry-prometheus/src/utils.rs: sanitize_name, sanitize_prom_kv", "opentelemetry-prometheus/src/lib.rs: get_attrs, add_histogram_metric"]}
{"id": "C120", "title": "Attributes and scopes can be used as map keys whatever they hold", "statement": "KeyValue and InstrumentationScope equality is reflexive, equal values hash equally, and scope equality ignores attribute order, for all values.", "quantifier": "all values", "why_tests_cant": "Tests use ordinary floats and distinct keys.", "anchors": ["opentelemetry/src/common.rs: PartialEq/Eq/Hash for KeyValue, InstrumentationScope"]}
{"id": "C121", "title": "Programmatic OTLP headers and endpoints win over the environment", "statement": "Headers and endpoints given by the program win over the environment, an empty endpoint selects the default, and only %XX escapes are decoded. The content type of a request is that of its body.", "quantifier": "every combination of set/unset/invalid values", "why_tests_cant": "Tests set one source at a time.", "anchors": ["opentelemetry-otlp/src/exporter/mod.rs: resolve_timeout, url_decode, parse_header_string", "opentelemetry-otlp/src/exporter/http/mod.rs: resolve_http_endpoint, build_endpoint_uri"]}
{"id": "C122", "title": "B3 single header and custom Jaeger headers are announced by fields()", "statement": "The B3 propagator with the single-header encoding and the Jaeger propagator with any custom header change only carrier entries listed by fields().", "quantifier": "every context, carrier, propagator configuration, and list of member propagators", "why_tests_cant": "Tests compare fields() with an expected list.", "anchors": ["opentelemetry-sdk/src/propagation/trace_context.rs: fields, inject_context", "opentelemetry-sdk/src/propagation/baggage.rs: fields, inject_context", "opentelemetry-zipkin/src/propagator/mod.rs: fields, inject_context", "opentelemetry-jaeger-propagator/src/propagator.rs: fields, with_custom_header_and_baggage", "opentelemetry/src/propagation/composite.rs: fields"]}
{"id": "C123", "title": "The telemetry API can be used inside any callback", "statement": "Samplers, span processors, closures given to map_current or get_active_span, propagators and receivers of internal logs may call the context and tracing API without making the thread panic.", "quantifier": "all programs of nested API calls, all callbacks, all orders of dropping guards and contexts, runs of any length", "why_tests_cant": "Tests use callbacks that do not call back into the API.", "anchors": ["opentelemetry/src/context.rs:133-147", "opentelemetry/src/context.rs:325-332", "opentelemetry/src/context.rs:463-590", "opentelemetry/src/trace/context.rs:270-367", "opentelemetry/src/trace/tracer.rs:134-215", "opentelemetry-sdk/src/trace/span.rs:200-247"]}
{"id": "C124", "title": "A response without strategy leaves the remote sampler as it was", "statement": "A response of the Jaeger sampling endpoint without any strategy leaves the previous one in force.", "quantifier": "every previous strategy and every response", "why_tests_cant": "Tests do not send empty responses after usable ones.", "anchors": ["opentelemetry-sdk/src/trace/sampler/jaeger_remote/sampling_strategy.rs: Inner::update, init_strategy, should_sample, PerOperationStrategies"]}
{"id": "C125", "title": "An observation made during a collection is reported by that reader only", "statement": "When a reader collects, the values its callbacks observe enter the aggregation of that reader and of no other reader.", "quantifier": "every number of readers and every sequence of creations, measurements and collections", "why_tests_cant": "Tests use one reader.", "anchors": ["opentelemetry-sdk/src/metrics/pipeline.rs: Pipelines::register_callback, Pipeline::produce", "opentelemetry-sdk/src/metrics/instrument.rs: Observable::observe", "opentelemetry-sdk/src/metrics/meter.rs: create_observable_counter"]}
{"id": "C126", "title": "The schema URL of the instrumentation scope reaches the OTLP receiver", "statement": "For spans, logs and metrics, the scope entry of the OTLP request carries the schema URL of the instrumentation scope the telemetry was recorded with.", "quantifier": "all batches, resources and scopes", "why_tests_cant": "Tests do not set schema URLs.", "anchors": ["opentelemetry-proto/src/transform/trace.rs:153-189", "opentelemetry-proto/src/transform/logs.rs:167-217", "opentelemetry-proto/src/transform/metrics.rs:130-142"]}
{"id": "C127", "title": "Prometheus scrapes have one family per name and distinct series", "statement": "Families exported under target_info and otel_scope_info have one type and help text too, and one scrape never contains two samples with the same name and labels.", "quantifier": "all sequences of collected metrics, scopes, configurations and scrapes", "why_tests_cant": "Tests use distinct names.", "anchors": ["opentelemetry-prometheus/src/lib.rs:285-392", "opentelemetry-prometheus/src/lib.rs:427-460"]}
{"id": "C128", "title": "Every OTLP exporter reports refusals and sends nothing after shutdown", "statement": "For every signal and protocol, export returns Ok only when the collector accepted the request, and nothing is sent once shutdown has returned.", "quantifier": "for every transport, signal, sequence of exports and shutdowns, and every answer of the collector", "why_tests_cant": "Tests use collectors that accept.", "anchors": ["opentelemetry-otlp/src/exporter/http/metrics.rs", "opentelemetry-otlp/src/exporter/http/trace.rs", "opentelemetry-otlp/src/exporter/tonic/logs.rs", "opentelemetry-otlp/src/span.rs"]}
{"id": "C129", "title": "Every W3C baggage header is read as the grammar means it", "statement": "Extraction yields exactly the entries the header means for every baggage header of the W3C grammar within the limits.", "quantifier": "for every header generated by the grammar, of any number of members, white space, escapes and properties", "why_tests_cant": "Tests use simple headers.", "anchors": ["opentelemetry-sdk/src/propagation/baggage.rs"]}
{"id": "C130", "title": "Trace state and baggage travel through HTTP headers whatever characters they hold", "statement": "Every trace state and every baggage the API accepts arrives on the other side of an HTTP request.", "quantifier": "for every context, header map, header name and value", "why_tests_cant": "Tests use ASCII.", "anchors": ["opentelemetry-http/src/lib.rs"]}
{"id": "C131", "title": "A queue size replaced by the program does not limit the batch size", "statement": "The batch size of the span processor is the last value the program gave, else that of the environment, else the default, limited by the queue size in force.", "quantifier": "for all environments (every variable with any text), all sequences of builder calls in any order, all parents and trace ids", "why_tests_cant": "Tests set one source at a time.", "anchors": ["opentelemetry-sdk/src/trace/config.rs:29-136", "opentelemetry-sdk/src/trace/provider.rs:349-395", "opentelemetry-sdk/src/trace/span_processor.rs:690-851", "opentelemetry-sdk/src/logs/batch_log_processor.rs:600-733"]}
{"id": "C132", "title": "Calls on an async periodic reader return even without a provider", "statement": "force_flush and shutdown of the async periodic reader return whether or not the reader was registered with a provider.", "quantifier": "for all interleavings of callers, ticks, registration and the worker, all outcomes of collections and exports", "why_tests_cant": "Tests register the reader.", "anchors": ["opentelemetry-sdk/src/metrics/periodic_reader_with_async_runtime.rs:96-440"]}
{"id": "C133", "title": "OTLP/JSON carries every request in the documented form", "statement": "Writing any OTLP request as JSON and reading it back gives the same request, and exemplars have the form OTLP/JSON prescribes.", "quantifier": "for all requests whose values are in the range of their types, any nesting depth, any number of resources, scopes and items; for all batches exported by the SDK", "why_tests_cant": "Tests use finite floats and no exemplars.", "anchors": ["opentelemetry-proto/src/proto.rs:5-191", "opentelemetry-proto/src/proto/tonic/opentelemetry.proto.common.v1.rs:8-86", "opentelemetry-proto/src/proto/tonic/opentelemetry.proto.trace.v1.rs:74-340", "opentelemetry-proto/src/proto/tonic/opentelemetry.proto.logs.v1.rs:74-195", "opentelemetry-proto/src/proto/tonic/opentelemetry.proto.metrics.v1.rs:40-800", "opentelemetry-proto/tests/grpc_build.rs:26-125"]}
{"id": "C134", "title": "Zipkin receives roots, service names, error attributes and arrays as recorded", "statement": "A root span has no parent id, the service name of the resource is present, no user attribute is lost, and tags identify array values.", "quantifier": "all batches, spans, attributes, events, hash map orders, collector answers and environments", "why_tests_cant": "Tests compare a few fields.", "anchors": ["opentelemetry-zipkin/src/exporter/model/mod.rs:33-117", "opentelemetry-zipkin/src/exporter/model/span.rs", "opentelemetry-zipkin/src/exporter/model/annotation.rs", "opentelemetry-zipkin/src/exporter/mod.rs:121-140", "opentelemetry-zipkin/src/exporter/uploader.rs", "opentelemetry-zipkin/src/exporter/env.rs"]}
{"id": "C135", "title": "Keys, positions and error names survive the log and tracing bridges", "statement": "Map keys given to serde keep their text, positions in a sequence are kept, and error fields keep their names.", "quantifier": "all levels, messages, field lists, contexts, processors, and all values of any depth given to serde", "why_tests_cant": "Tests use string keys and no nulls.", "anchors": ["opentelemetry-appender-log/src/lib.rs:122-770", "opentelemetry-appender-tracing/src/layer.rs:12-280"]}
{"id": "C136", "title": "Resource merge is associative", "statement": "Merging three resources gives the same resource, schema URL included, in whichever order the merges are made.", "quantifier": "all pairs and triples of resources", "why_tests_cant": "Tests merge two resources.", "anchors": ["opentelemetry-sdk/src/resource/mod.rs: Resource::merge, from_schema_url"]}
{"id": "C137", "title": "Answers of the async-runtime batch processors cover all their work", "statement": "A successful force_flush means that every export made since the previous one succeeded, and the shutdown of the span processor answers after the exporter was shut down.", "quantifier": "every message sequence and batch size", "why_tests_cant": "Needs failing exports of full batches between flushes, or an interleaving.", "anchors": ["opentelemetry-sdk/src/trace/span_processor_with_async_runtime.rs: BatchSpanProcessorInternal::process_message, flush, export", "opentelemetry-sdk/src/logs/log_processor_with_async_runtime.rs: worker loop"]}
{"id": "C138", "title": "The span of a context can be used from any threads, as if the calls were made one after the other", "statement": "Any number of threads may call add_event, set_attribute(s), set_status, update_name, is_recording and end on the span of a shared context. Whenever no call is running, the span and what the processors got are as if all calls had been made one after the other on a span owned by one thread, in an order that keeps each thread's own order. No call is lost, a thread never waits forever when callbacks leave the span alone, and calls on a span that only stands for a remote parent change nothing.", "quantifier": "all numbers of threads, all programs of calls, all interleavings, all processors", "why_tests_cant": "Tests run a handful of interleavings; the property is about every one of them.", "anchors": ["opentelemetry/src/trace/context.rs:29-200", "opentelemetry/src/global/trace.rs:170-245", "opentelemetry-sdk/src/trace/span.rs:70-247"]}
{"id": "C139", "title": "Callbacks run by the span of a context may use that span", "statement": "A processor called back because cx.span().end() was called, and an iterator given to cx.span().set_attributes, may themselves use cx.span() (for example is_recording) without blocking the thread.", "quantifier": "all processors, all iterators, all programs", "why_tests_cant": "The mutex is only taken twice on one thread when a callback happens to hold the same context; tests use processors that do not look at it.", "anchors": ["opentelemetry/src/trace/context.rs:53-200", "opentelemetry-sdk/src/trace/span.rs:200-247"]}
{"id": "C140", "title": "A panic in one call on the span of a context stays local", "statement": "If a processor or an iterator panics inside a call on the span of a context and the panic is caught, what other code records on the same span later is still recorded, and the span can still be ended.", "quantifier": "all threads, all programs, all interleavings, all places of the panic", "why_tests_cant": "Poisoning shows up only in calls made after the panic on the same context, and they fail silently.", "anchors": ["opentelemetry/src/trace/context.rs:53-200"]}
{"id": "C141", "title": "The global API hands out the provider that was set last", "statement": "global::tracer_provider, meter_provider and get_text_map_propagator use the provider set by the last completed set call of any thread (the no-op one before any). When closures and destructors of providers do not come back to the global API, no thread waits forever.", "quantifier": "all numbers of threads, all programs of get, with, set and drop, all interleavings", "why_tests_cant": "Tests cannot run every interleaving of readers and writers of the global lock.", "anchors": ["opentelemetry/src/global/trace.rs:365-445", "opentelemetry/src/global/metrics.rs:11-82", "opentelemetry/src/global/propagation.rs:14-43"]}
{"id": "C142", "title": "The global API can be used from destructors and closures it runs", "statement": "The destructor of a replaced global provider (which may shut down exporters, which may be instrumented) and the closure given to get_text_map_propagator may use the global API without blocking the thread.", "quantifier": "all programs, all destructors, all interleavings", "why_tests_cant": "The lock is held only while the old provider happens to lose its last owner, or while another writer waits.", "anchors": ["opentelemetry/src/global/metrics.rs:11-34", "opentelemetry/src/global/propagation.rs:25-43"]}
{"id": "C143", "title": "A service without an SDK passes the trace context through", "statement": "With only the API and no SDK, the spans of the no-op tracer carry the parent's span context: what a propagator injects for a context with any depth of no-op spans is what it injects for the incoming context, baggage included, so the next service sees the caller's trace.", "quantifier": "all contexts, all carriers, any number of nested no-op spans", "why_tests_cant": "Tests nest one no-op span below one remote parent with one set of headers.", "anchors": ["opentelemetry/src/trace/noop.rs:20-132", "opentelemetry-sdk/src/propagation/trace_context.rs:60-180"]}
{"id": "C144", "title": "Extraction adds to the context it is given", "statement": "extract_with_context of any propagator, the no-op one included, returns the given context with what it found added: a context with nothing found in the carrier keeps all its values.", "quantifier": "all contexts, all carriers", "why_tests_cant": "A propagator that ignores the given context is right whenever that context happens to be the current one, which is how tests call it.", "anchors": ["opentelemetry/src/trace/noop.rs:134-165"]}
{"id": "C145", "title": "The in-memory exporters give back exactly what was exported", "statement": "get_finished_spans, get_emitted_logs and get_finished_metrics return, in order, everything exported through any clone of the exporter since the last reset (for spans and logs also since the last shutdown), unchanged field by field.", "quantifier": "all sequences of export, reset, shutdown, set_resource and get from any clones, all spans, logs and metrics", "why_tests_cant": "These exporters are the ones tests observe everything else with; a field they lose is lost in every test.", "anchors": ["opentelemetry-sdk/src/trace/in_memory_exporter.rs:92-154", "opentelemetry-sdk/src/logs/in_memory_exporter.rs:141-221", "opentelemetry-sdk/src/metrics/in_memory_exporter.rs:134-264"]}
{"id": "C146", "title": "Logs read from an in-memory exporter carry the resource of their provider when there is only one", "statement": "If all set_resource calls on the clones of an in-memory log exporter set the same resource, every log it returns carries that resource.", "quantifier": "all sequences of calls on any clones", "why_tests_cant": "Tests set the resource once, before the first log.", "anchors": ["opentelemetry-sdk/src/logs/in_memory_exporter.rs:159-172", "opentelemetry-sdk/src/logs/in_memory_exporter.rs:217-220"]}
{"id": "C147", "title": "Logs keep the resource of the provider that emitted them", "statement": "A log exported by a provider is returned with that provider's resource, also when another provider with a different resource is built later on a clone of the same exporter.", "quantifier": "all sequences of calls on any clones", "why_tests_cant": "Tests use one provider per exporter.", "anchors": ["opentelemetry-sdk/src/logs/in_memory_exporter.rs:63-73", "opentelemetry-sdk/src/logs/in_memory_exporter.rs:159-172"]}
{"id": "C148", "title": "A Prometheus scrape holds the target, each scope and each of its metrics once, with the labels of that scope", "statement": "A scrape is the target_info gauge (the resource's attributes, value 1; left out when switched off or the resource is empty), then for each collected scope in order its otel_scope_info gauge (when it has attributes) and one sample per data point of its metrics in order, labelled with the point's attributes, that scope's name and version and the selected resource attributes.", "quantifier": "all collected data, resources, configurations and earlier scrapes", "why_tests_cant": "Tests compare fixed scrapes; mixing up scopes needs several of them with metrics of the same name.", "anchors": ["opentelemetry-prometheus/src/lib.rs:285-392", "opentelemetry-prometheus/src/lib.rs:577-626"]}
{"id": "C149", "title": "The attributes of a scope can be found in a Prometheus scrape", "statement": "Scopes with different attributes give different scrapes, and two scopes that differ only in their attributes do not produce the same otel_scope_info series twice.", "quantifier": "all collected data, resources and configurations", "why_tests_cant": "Tests use scopes without attributes or one scope only.", "anchors": ["opentelemetry-prometheus/src/lib.rs:602-626"]}
{"id": "C150", "title": "From on_end to the OTLP requests: each accepted span or record is sent exactly once", "statement": "With a batch processor and an OTLP exporter, all requests together carry exactly the spans exported so far, no span twice (spans having distinct ids), under the name, version and attributes of their scope; an accepted span is in a request or still waiting, one turned away is in none; no request is empty or exceeds the batch size; shutting down with at most one batch queued sends everything accepted before. Likewise for log records.", "quantifier": "all interleavings of threads ending spans or emitting records with flushes, shutdown, timers and the worker; all sizes; all spans, records, scopes and hash orders", "why_tests_cant": "It composes the concurrent processor with the grouping by scope; tests cover one batch of a fixed content or the processor with a mock exporter.", "anchors": ["opentelemetry-sdk/src/trace/span_processor.rs:268-625", "opentelemetry-sdk/src/logs/batch_log_processor.rs:107-544", "opentelemetry-proto/src/transform/trace.rs:153-189", "opentelemetry-proto/src/transform/logs.rs"]}
{"id": "C151", "title": "From instrument to export: a collection reports exactly the measurements made", "statement": "Whatever instruments are created, whatever is measured and whichever readers collect, a collection by a reader yields the resource and, scope by scope and stream by stream in creation order, one metric for each stream with something to report, under the name, description, unit, number type, kind and temporality of the stream. Its points account for each measurement made through an instrument feeding the stream exactly once: under the attribute set the view keeps, or under the overflow set if at least as many other sets as the limit were seen; since the last collection of this very reader for delta streams, since the beginning for the others. Observable sums with delta temporality show the difference to what the collection before accounted for under the same list of attributes. Within the limit there is exactly one point per attribute set; with or without overflow the points of an integer sum add up to everything measured.", "quantifier": "all sequences of creations, measurements and collections, all numbers of readers and temporality preferences, all views, aggregators, attribute lists, hash iteration orders and buffer contents", "why_tests_cant": "Tests check one instrument with a handful of measurements and one reader; the guarantee is about every interleaving of creations, measurements and collections of several readers.", "anchors": ["opentelemetry-sdk/src/metrics/pipeline.rs:80-480", "opentelemetry-sdk/src/metrics/internal/mod.rs:40-260", "opentelemetry-sdk/src/metrics/internal/aggregate.rs:1-210", "opentelemetry-sdk/src/metrics/meter.rs"]}
{"id": "C152", "title": "A periodic reader never runs with a zero interval", "statement": "Whatever the environment and the builder calls, the interval between two exports of a periodic reader is not zero; a zero falls back to one minute as documented.", "quantifier": "all environments and sequences of builder calls", "why_tests_cant": "Tests set either the variable or the option to sensible values.", "anchors": ["opentelemetry-sdk/src/metrics/periodic_reader.rs:28-66", "opentelemetry-sdk/src/metrics/periodic_reader_with_async_runtime.rs:27-105"]}
{"id": "C153", "title": "The stdout exporters print everything once and readably", "statement": "Whatever batch is exported, each span, log record and metric is printed in order with its number, and its scope, name, ids, flags, parent, kind, times in microseconds, status, attributes, events, links, body, severity, values, counts, minimum, maximum and buckets (each between its own bounds) can be read back from the lines. However export calls of several threads interleave, every call prints its heading and its own batch in order, exactly one of the finished calls prints the resource (metrics print it each time), no call waits for another, a call begun after shutdown fails and prints nothing, and none fails before.", "quantifier": "all batches, all resources, all interleavings of export calls and shutdown", "why_tests_cant": "The crate has no tests of its output; the layout has optional parts at every level and the once-only resource depends on a race.", "anchors": ["opentelemetry-stdout/src/trace/exporter.rs:33-152", "opentelemetry-stdout/src/logs/exporter.rs:34-116", "opentelemetry-stdout/src/metrics/exporter.rs:41-252"]}
{"id": "C154", "title": "The stdout exporter prints every data point", "statement": "Every data point of every exported metric appears in the output of the stdout metric exporter.", "quantifier": "all metrics", "why_tests_cant": "The crate has no tests of its output, and examples use no exponential histograms.", "anchors": ["opentelemetry-stdout/src/metrics/exporter.rs:109-132"]}
{"id": "C155", "title": "A global provider is shut down when it is replaced and no longer kept, and not earlier", "statement": "Whatever threads set, get and drop in whatever order, dropping the last reference (which shuts a provider down) happens only to a provider that is no longer the global one, of which the application keeps no clone and of which no clone is still to be dropped; once all calls have returned, every provider that was set or held, is not the global one and is not kept has been shut down.", "quantifier": "all programs of any number of threads, all interleavings, any number of providers and clones", "why_tests_cant": "Tests replace a global once on one thread; a leak or an early shutdown depends on who drops the last clone.", "anchors": ["opentelemetry/src/global/trace.rs:372-440", "opentelemetry/src/global/metrics.rs:11-51", "opentelemetry/src/global/propagation.rs:14-44"]}
{"id": "C156", "title": "A span holds what its builder was last told", "statement": "After any calls of SpanBuilder's with_* methods, in any order, each field of the builder is the one of the last call for it (with_links keeping the links to valid span contexts), and calls for different fields commute. The sampler, unless a sampling result was given, is shown the parent context, the trace id the span will get, the name, the kind (Internal by default), and those attributes and links. The started span, if it records, holds within its limits those attributes followed by the sampler's, those events and links, that kind, name, start (the clock if none), end (the start if none) and status; later operations come after. start uses the thread's current context, start_with_context the given one.", "quantifier": "all sequences of builder calls, all samplers, contexts, limits and later operations", "why_tests_cant": "Tests call each method once; overwriting, order and the interplay with limits and sampler attributes are open-ended.", "anchors": ["opentelemetry/src/trace/tracer.rs:134-172", "opentelemetry/src/trace/tracer.rs:283-381", "opentelemetry-sdk/src/trace/tracer.rs:55-290"]}
{"id": "C157", "title": "Nothing given to a span builder disappears uncounted", "statement": "Every link given to a builder that the started span does not keep is counted in dropped_count; giving a link to the builder or to the span makes no difference; the dropped attribute counts that events and links carry are not lost. (Refuted: with_links removes links whose span context is invalid without counting them, even if they have attributes, while Span::add_link keeps them; the given counts are overwritten. For valid links the first part holds.)", "quantifier": "all builder calls, links, events and limits", "why_tests_cant": "Tests use valid links and events without dropped attributes.", "anchors": ["opentelemetry/src/trace/tracer.rs:352-358", "opentelemetry-sdk/src/trace/tracer.rs:72-130", "opentelemetry-sdk/src/trace/span.rs:176-195"]}
{"id": "C158", "title": "Exported bytes are read by any OTLP receiver as the messages sent", "statement": "From the Protocol Buffers bytes of a trace, log or metric export request, a receiver that knows only the wire format and the field numbers and types of the published OTLP definitions reads exactly the request that was encoded: every value at any nesting, default and absent fields, signed and packed numbers, oneofs, floats bit for bit. Whatever the SDK hands over (Rust strings and integers) is such a request, so the bodies of a batch processor's requests read back to the spans it exported, each once.", "quantifier": "all requests with values within their types, all nesting depths and sizes, all runs of the batch processor", "why_tests_cant": "Tests encode and decode with the same generated code, so a wrong tag or type passes on both sides; sizes and nesting are unbounded.", "anchors": ["opentelemetry-proto/src/proto/tonic/opentelemetry.proto.common.v1.rs", "opentelemetry-proto/src/proto/tonic/opentelemetry.proto.trace.v1.rs", "opentelemetry-proto/src/proto/tonic/opentelemetry.proto.logs.v1.rs", "opentelemetry-proto/src/proto/tonic/opentelemetry.proto.metrics.v1.rs", "opentelemetry-otlp/src/exporter/http/mod.rs:288-350"]}
{"id": "C159", "title": "The trace view shows a span as its export does", "statement": "The latency, running and error messages of the trace view, read by their published definition, show of any span the ids, times, attributes, events and links that an OTLP export of the same span carries (the end time in the latency view only). The error view carries the status exactly of failed spans, with the exported code and description. A root is shown with a parent id of eight zero bytes where an export leaves it empty. The counts are read back as given.", "quantifier": "all spans, all counts", "why_tests_cant": "The conversions repeat those of the exports by hand, and tests cover neither arbitrary spans nor the bytes as another program reads them.", "anchors": ["opentelemetry-proto/src/transform/tracez.rs:12-71", "opentelemetry-proto/src/proto/tonic/opentelemetry.proto.tracez.v1.rs", "opentelemetry-proto/src/proto/tracez.proto"]}
{"id": "C160", "title": "The remote sampler follows the last strategy it could fetch", "statement": "Over any history of fetches, clones, drops and spans, the sampler decides by the strategy of the last answer that had status 200 and a readable document; failed fetches, other statuses and unreadable bodies change nothing. Before the first such answer the default sampler decides. Per-operation probabilities win over a rate, and a rate over one probability; a span's operation takes the last entry of its name, or the default. While the rate stays the same, the number of spans sampled in any stretch of time is bounded by the bucket and the rate, even across fetches that repeat it.", "quantifier": "all histories, documents, bucket sizes, trace ids, names and times", "why_tests_cant": "Tests apply one response to a fresh strategy; they do not interleave fetches with decisions, nor show that failed fetches never lose the strategy or reset the bucket.", "anchors": ["opentelemetry-sdk/src/trace/sampler/jaeger_remote/sampler.rs:139-279", "opentelemetry-sdk/src/trace/sampler/jaeger_remote/sampling_strategy.rs:26-197", "opentelemetry-sdk/src/trace/sampler/jaeger_remote/remote.rs:1-87"]}
{"id": "C161", "title": "The fetching task ends with the last sampler", "statement": "Once every handle of a remote sampler is dropped, its background task stops and sends no more requests.", "quantifier": "all histories", "why_tests_cant": "It is about what never happens after the last handle is gone.", "anchors": ["opentelemetry-sdk/src/trace/sampler/jaeger_remote/sampler.rs:157-218", "opentelemetry-sdk/src/trace/sampler/jaeger_remote/sampling_strategy.rs:26-48"]}
{"id": "C162", "title": "Every answer of the Jaeger sampling API is understood", "statement": "Whatever answer of status 200 a Jaeger server may give (types PROBABILISTIC and RATE_LIMITING, or none; numbers of the per-operation strategies optional), the sampler takes over the strategy in it.", "quantifier": "all answers of the API", "why_tests_cant": "The tests read one probabilistic answer; the space of answers the API allows is unbounded.", "anchors": ["opentelemetry-sdk/src/trace/sampler/jaeger_remote/remote.rs:1-87", "opentelemetry-sdk/src/trace/sampler/jaeger_remote/sampler.rs:220-252"]}
{"id": "C163", "title": "The remote sampler asks for its own service", "statement": "Whatever the service is called, the server reads from the query the parameters already in the endpoint followed by service with exactly that name, at the endpoint's address. Building fails exactly when the endpoint or the service name is empty. An endpoint that is not a URL is replaced by the default one.", "quantifier": "all endpoints and service names", "why_tests_cant": "Names with reserved or non-ASCII characters are unbounded; a test shows a few.", "anchors": ["opentelemetry-sdk/src/trace/sampler/jaeger_remote/sampler.rs:105-130"]}
{"id": "C164", "title": "A service name in the endpoint is ignored", "statement": "As with_endpoint says, a service name that is part of the endpoint has no effect on the service asked for.", "quantifier": "all endpoints and service names", "why_tests_cant": "No test gives an endpoint with a service in it.", "anchors": ["opentelemetry-sdk/src/trace/sampler/jaeger_remote/sampler.rs:72-82", "opentelemetry-sdk/src/trace/sampler/jaeger_remote/sampler.rs:117-130"]}
{"id": "C165", "title": "What the application measures is what the OTLP receiver reads", "statement": "Whatever instruments are created, measured and collected and whatever the views: the bytes the OTLP exporter sends for a collection are read by a receiver as a request with the resource, and, for every stream measured in the window of the collection (within its cardinality limit), a metric under the stream's scope, name, description and unit with exactly one data point per attribute set measured. The point shows the window's start, the time of the collection, and the sum, the last value, or the count, buckets, sum, minimum and maximum of exactly the measurements made with those attributes (for exponential histograms: also the zero count, at most the configured number of buckets, and bucket contents exact up to scale 0 and up to the error of the logarithm above); for observable sums with delta temporality whose attributes are always given in one order, the change of the last observation since the window before. There are no other metrics than those of measured streams.", "quantifier": "all sequences of creations, measurements and collections, all views, readers, temporalities, hash orders and values in the range of OTLP", "why_tests_cant": "Tests check single stages with fixed data; that the stages compose, for all programs and attribute orders, down to the bytes is an induction over executions and message structure.", "anchors": ["opentelemetry-sdk/src/metrics/meter.rs", "opentelemetry-sdk/src/metrics/pipeline.rs", "opentelemetry-sdk/src/metrics/internal/mod.rs:55-275", "opentelemetry-sdk/src/metrics/internal/sum.rs:17-155", "opentelemetry-sdk/src/metrics/internal/last_value.rs:13-145", "opentelemetry-sdk/src/metrics/internal/histogram.rs:17-237", "opentelemetry-sdk/src/metrics/internal/exponential_histogram.rs:316-545", "opentelemetry-proto/src/transform/metrics.rs:113-331"]}
{"id": "C166", "title": "The text of a value determines it within its type", "statement": "Two values of one type (booleans, integers, floats that are no NaN, strings, and arrays of these whose strings hold no double quote) with the same Display text are equal.", "quantifier": "all values, arrays of any length", "why_tests_cant": "Injectivity is about all pairs of values; a test compares a few texts.", "anchors": ["opentelemetry/src/common.rs:168-198", "opentelemetry/src/common.rs:315-330", "opentelemetry/src/common.rs:377-389"]}
{"id": "C167", "title": "Arrays of any strings are told apart by their text", "statement": "Two arrays of strings with the same Display text are equal.", "quantifier": "all arrays of strings", "why_tests_cant": "It takes a pair of arrays whose elements contain quotes and commas.", "anchors": ["opentelemetry/src/common.rs:174-183"]}
{"id": "C168", "title": "Points with different attributes are different Prometheus series", "statement": "In a scrape, two points of a metric with different attributes have different labels, provided their keys are distinct and made of letters, digits, colons and underscores, and values under the same key have the same type (and are as in C166). More generally the attributes are determined by the labels whenever no two keys share a label name.", "quantifier": "all metrics, attribute sets and numbers of points", "why_tests_cant": "Label collisions depend on pairs of attribute sets among all possible ones.", "anchors": ["opentelemetry-prometheus/src/lib.rs:395-425", "opentelemetry-prometheus/src/utils.rs:136-146", "opentelemetry/src/common.rs:377-389"]}
{"id": "C169", "title": "A Prometheus scrape never holds one series twice for one metric", "statement": "Whatever the attributes of its points, a metric with points of different attributes gives different series, as Prometheus requires.", "quantifier": "all metrics and attribute sets", "why_tests_cant": "Tests scrape attribute sets whose labels do not collide.", "anchors": ["opentelemetry-prometheus/src/lib.rs:395-425", "opentelemetry-prometheus/src/utils.rs:136-146", "opentelemetry/src/common.rs:377-389"]}
{"id": "C170", "title": "What a batch processor exports carries the provider's resource", "statement": "A provider hands its resource to its processors when it is built. With a batch processor on an async runtime every batch is exported while the exporter holds that resource, if the queue had room for it. With a batch processor that has a thread, the same holds if the thread is waiting for messages when the provider is built; in any case only the first batches, with spans only the very first batch, can carry the resource the exporter was made with. Handing over the resource changes nothing else about the processor.", "quantifier": "all interleavings of any number of threads with the worker, all queue and batch sizes", "why_tests_cant": "The resource travels to the worker as a message in one channel and the records in another (threads) or the same one (async); whether a record can overtake it depends on the interleaving.", "anchors": ["opentelemetry-sdk/src/trace/span_processor.rs:386-389", "opentelemetry-sdk/src/trace/span_processor.rs:618-623", "opentelemetry-sdk/src/logs/batch_log_processor.rs:322-327", "opentelemetry-sdk/src/logs/batch_log_processor.rs:452-454", "opentelemetry-sdk/src/trace/span_processor_with_async_runtime.rs:160-165", "opentelemetry-sdk/src/trace/span_processor_with_async_runtime.rs:294-296", "opentelemetry-sdk/src/logs/log_processor_with_async_runtime.rs:111-116", "opentelemetry-sdk/src/logs/log_processor_with_async_runtime.rs:202-204"]}
{"id": "C171", "title": "A batch processor with a thread always exports with the provider's resource", "statement": "Whatever the thread is doing when the provider is built, every batch it exports afterwards is exported with the provider's resource.", "quantifier": "all interleavings", "why_tests_cant": "It takes the timer of the thread to fire just before the provider is built and the first record to arrive before the thread looks.", "anchors": ["opentelemetry-sdk/src/trace/span_processor.rs:386-403", "opentelemetry-sdk/src/logs/batch_log_processor.rs:452-470"]}
{"id": "C172", "title": "A provider has the resource its builder was given", "statement": "The resource the processors of a tracer or logger provider get is the given resources merged in order (the last one that has a key decides), or the default one if none was given; for tracer providers up to == of resources, whatever providers the process built before.", "quantifier": "all sequences of providers and of resources given to their builders", "why_tests_cant": "The first tracer provider's resource is kept in a process-wide static that later builds consult; tests in one process see one order of builds.", "anchors": ["opentelemetry-sdk/src/trace/provider.rs:405-447", "opentelemetry-sdk/src/logs/logger_provider.rs:236-257"]}
{"id": "C173", "title": "A trace keeps its id, its parent links, its decision and its baggage across services", "statement": "Services pass requests to each other, each with its own list of propagators (W3C, B3 in any encoding, Jaeger, baggage). If the sender and the receiver have a format in common, the receiver sees the sender's span as remote parent with the sender's sampling decision, whatever the order of the lists and whatever else the request carries; if they have none, it keeps the span it had. So in any tree of spans spread over any number of services with parent-based samplers, every span has the trace id of the root, the span id of its parent as parent, and is recorded and sampled exactly if the root is. Baggage arrives beside it if both have the baggage propagator.", "quantifier": "all trees, all numbers of services and requests, all lists of propagators, all ids, limits and processors; flags 0 or 1 at the root", "why_tests_cant": "Each propagator is tested alone on a few headers; nothing tests that what one service's list of propagators writes is what another's reads, nor chains of any length.", "anchors": ["opentelemetry-sdk/src/propagation/trace_context.rs:63-151", "opentelemetry-zipkin/src/propagator/mod.rs:151-303", "opentelemetry-jaeger-propagator/src/propagator.rs:75-216", "opentelemetry/src/propagation/composite.rs:68-111", "opentelemetry-sdk/src/trace/tracer.rs:180-290", "opentelemetry-sdk/src/trace/sampler.rs:165-226"]}
{"id": "C174", "title": "A trace keeps its decision across services whatever its flags", "statement": "As C173, for every flags byte a propagator can deliver, for instance that of a B3 debug trace.", "quantifier": "all flags", "why_tests_cant": "It takes a debug trace that came with several B3 headers and leaves with one.", "anchors": ["opentelemetry-zipkin/src/propagator/mod.rs:130-148", "opentelemetry-zipkin/src/propagator/mod.rs:223-270"]}
{"id": "C175", "title": "What the application measures is what Prometheus scrapes", "statement": "For any program of instruments, views, measurements, observations and collections, a scrape by the Prometheus exporter succeeds and shows, besides the info metrics, exactly one sample for each attribute set of each measured stream within its cardinality limit: under the stream's name and type, labelled with the attributes and the scope, with the sum, the last value or, for each boundary, the number of the measurements with these attributes that are not above it. Streams whose name belongs to a family of another type and exponential histograms show nothing. The type and help of a name never change between scrapes.", "quantifier": "all programs, views, readers, families of earlier scrapes, exporter settings, resources and scopes; sums within the range of their type, fewer than 2^64 measurements", "why_tests_cant": "Tests compare a few scrapes with stored texts; that no program, however long and whatever the order of collections and scopes, loses, doubles or mixes up measurements is beyond them.", "anchors": ["opentelemetry-prometheus/src/lib.rs:285-392", "opentelemetry-prometheus/src/lib.rs:427-575", "opentelemetry-sdk/src/metrics/pipeline.rs:79-130", "opentelemetry-sdk/src/metrics/internal/sum.rs:17-150", "opentelemetry-sdk/src/metrics/internal/last_value.rs:13-135", "opentelemetry-sdk/src/metrics/internal/histogram.rs:17-208"]}
{"id": "C176", "title": "A Prometheus scrape shows all that was measured", "statement": "Every stream that was measured appears in the next scrape.", "quantifier": "all programs, views and settings", "why_tests_cant": "It takes a view that selects an aggregation the exporter leaves out.", "anchors": ["opentelemetry-prometheus/src/lib.rs:230-262", "opentelemetry-prometheus/src/lib.rs:354-360"]}
{"id": "C177", "title": "What the application does with a span is what the OTLP receiver reads", "statement": "With a batch processor and the OTLP exporter, reading the bytes of all requests sent so far gives spans no two of which are equal. Each tells exactly what the calls for one span said: its ids and parent, trace state and flags (sampled exactly if the sampler said record-and-sample), the last name given, kind, start and end times, the attributes given to the builder, then those of the sampler, then those set, the events and the links (the first ones up to the limits, the number of the others), and the strongest status; below the resource and the scope of its tracer. Every accepted span is told exactly once, or still waits and is not told; spans turned away are not told; after a shutdown with at most a batch queued all are told. A span reaches the processor exactly if its context does not suppress telemetry, the sampler does not drop it and it is ended or dropped before the provider is shut down.", "quantifier": "all spans, builder calls, contexts, samplers, limits, lives of spans, queue and batch sizes, schedules of application and worker, groupings of scopes", "why_tests_cant": "It speaks of every sequence of calls on every number of spans under every interleaving with the worker, through limits, sampling, batching, conversion and encoding; tests look at one stage with a few inputs.", "anchors": ["opentelemetry/src/trace/tracer.rs:155-381", "opentelemetry-sdk/src/trace/tracer.rs:55-290", "opentelemetry-sdk/src/trace/span.rs:67-269", "opentelemetry-sdk/src/trace/span_processor.rs:305-560", "opentelemetry-proto/src/transform/trace.rs:36-189", "opentelemetry-proto/src/proto/tonic/opentelemetry.proto.trace.v1.rs:1-420"]}
{"id": "C178", "title": "What the application says of a log record is what the OTLP receiver reads", "statement": "With a batch log processor and the OTLP exporter, reading the bytes of all requests sent so far gives, in some order, exactly one message for each exported record and nothing else. It tells what the calls for that record said: the last event name, time, severity, severity text and body given (lists and maps nested to any depth, in order), every attribute in the order added, the observed time given or else the clock when emitted, and the trace, span and flags given or else those of the active span; below the resource and a scope named by the last target given or else by the logger, one per name in a request. Every accepted record is told or still waits, not both; records turned away are not told; all accepted ones are told once a flush or shutdown called when no emit is half way answers Ok. A record reaches the processor exactly if its context does not suppress telemetry. For a record logged through the log or tracing bridge the message has the first severity number of its level, the level's name, the message as body, the key values or fields as attributes, and the active span's ids. A record emitted under an active span and given no other trace is read with the trace and span ids that the span itself is read with.", "quantifier": "all records, calls on them, contexts, values of any depth, queue and batch sizes, schedules of application and worker, groupings", "why_tests_cant": "It speaks of every sequence of calls on every number of records under every interleaving with the worker, through the record, the logger, batching, conversion and encoding; tests look at one stage with a few inputs.", "anchors": ["opentelemetry-sdk/src/logs/record.rs:54-117", "opentelemetry-sdk/src/logs/logger.rs:30-55", "opentelemetry-sdk/src/logs/batch_log_processor.rs:140-420", "opentelemetry-proto/src/transform/logs.rs:27-217", "opentelemetry-proto/src/proto/tonic/opentelemetry.proto.logs.v1.rs:1-260", "opentelemetry-appender-log/src/lib.rs:136-238", "opentelemetry-appender-tracing/src/layer.rs:69-280"]}
