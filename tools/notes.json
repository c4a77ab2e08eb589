{
 "C06": {
  "note": "The exact acceptance rule (including after removals) is C06_insert_acceptance; the space of removed entries is property C89."
 },
 "C07": {
  "note": "False of the code: with_cleared_baggage stores a value of another type, so baggage() is unchanged for every context. Refuted by a witness; the reading back of stored baggage is proved."
 },
 "C08": {
  "note": "Proved on the exact domain (BaggageSpec.representable); values with %XX are property C90."
 },
 "C09": {
  "note": "lib_key and lib_value state the grammar separately; the documented grammar is property C91."
 },
 "C10": {
  "note": "States with repeated keys: property C92."
 },
 "C16": {
  "note": "C16_accepted_exactly gives the language; strictness is property C93."
 },
 "C17": {
  "note": "The sampled bit next to debug, and stale flags headers, are property C94."
 },
 "C18": {
  "note": "The single-header encoding is property C95."
 },
 "C19": {
  "note": "Foreign prefixed headers are property C96."
 },
 "C20": {
  "note": "Jaeger is property C97."
 },
 "C68": {
  "note": "The exceptions are property C122."
 },
 "C22": {
  "note": "Parents with invalid span contexts are property C98."
 },
 "C24": {
  "note": "For whole-number bucket sizes and rates (all the remote sampler can ask for), by refinement to an integer token bucket. Refill under frequent polls and clocks that go back are property C99."
 },
 "C70": {
  "note": "Responses without any strategy are property C124."
 },
 "C25": {
  "note": "u32 counters wrap as in a release build"
 },
 "C26": {
  "note": "a processor's on_start that itself ends the span is not modelled"
 },
 "C27": {
  "note": "Which description is kept is property C100."
 },
 "C28": {
  "note": "any limits, sampler, id generator outputs, processors and tree depth"
 },
 "C29": {
  "note": "Invalid parents are property C101."
 },
 "C30": {
  "note": "Ends already past their check when shutdown returns are property C102."
 },
 "C31": {
  "note": "any interleaving of calls, and sequentially the exact list"
 },
 "C32": {
  "note": "any number of producers, any queue and batch size; sequentially consistent atomics; proved jointly with C36"
 },
 "C33": {
  "note": "Queues longer than one batch are property C103."
 },
 "C34": {
  "note": "Draining and shutting the exporter down are property C104."
 },
 "C35": {
  "note": "Without the condition: property C105."
 },
 "C36": {
  "note": "any number of producers, any queue and batch size; proved jointly with C32"
 },
 "C37": {
  "note": "The unconditional reading is property C106."
 },
 "C38": {
  "note": "The underflow is property C107."
 },
 "C39": {
  "note": "all proved; the emit path makes no shutdown check, so an old logger still reaches the processors"
 },
 "C40": {
  "note": "Emits under way, and the concurrent processor, are property C108."
 },
 "C41": {
  "note": "any capacity and any length"
 },
 "C71": {
  "note": "all proved"
 },
 "C42": {
  "note": "Any aggregator, filter, sort, number of threads and schedule. The point's value aggregates a prefix of the applied measurements ending during the collection; with nothing in flight that prefix is everything. Integer sums are exact modulo 2^64; float sums are the ordered fold (C45 covers the atomic addition). With duplicate keys in one call the reported attribute list may still contain the duplicates: see C72."
 },
 "C43": {
  "note": "The grand total is stated for integers modulo 2^64 and for a collection that overlaps no measurement; in general C42/C44 give each point's window."
 },
 "C44": {
  "note": "Windows of successive collections tile the history, for the map and for the empty set separately."
 },
 "C46": {
  "note": "Without the condition: property C109."
 },
 "C50": {
  "note": "Instance of the store with the assigning aggregator, for both temporalities and every schedule."
 },
 "C45": {
  "note": "Linearizability of add/store/get/reset for any number type and any schedule, real-time order, lock-freedom; f64 satisfies the bit round-trip premise.",
  "status": "proved"
 },
 "C47": {
  "note": "A NaN measurement is counted in the first bucket. Infinite floats are property C110."
 },
 "C51": {
  "note": "Sets skipped in a collection or given in another order are property C113."
 },
 "C52": {
  "note": "Sequential collections, as the pipeline lock enforces.",
  "status": "proved"
 },
 "C48": {
  "note": "Also proved for max_size 2 with normal numbers; limits for max_size >= 1. f64::ln enters as a parameter with the hypothesis ln_ok. Other configurations are property C111."
 },
 "C49": {
  "note": "f64::ln enters as a parameter with the hypothesis ln_ok. Exactness at positive scales is property C112."
 },
 "C53": {
  "note": "Incoherent views are property C114."
 },
 "C54": {
  "note": "Acceptance is characterised by the grammar; a rejected instrument is shown to leave every aggregate unchanged."
 },
 "C55": {
  "note": "Other patterns and criteria of scope attributes are property C115."
 },
 "C73": {
  "note": "Selection table and compatibility proved; an incompatible view aggregation makes the instrument record nothing.",
  "status": "proved"
 },
 "C74": {
  "note": "Several readers are property C125."
 },
 "C56": {
  "note": "Proved for every leftover buffer, with the value maps abstracted to what they report."
 },
 "C57": {
  "note": "Proved over all interleavings. A shutdown that gives up after its five seconds returns an error while the worker still carries out its final export (C57_timeout_still_exports)."
 },
 "C75": {
  "note": "Proved."
 },
 "C76": {
  "note": "Proved."
 },
 "C77": {
  "note": "Proved; the shutdown machine is that of C30 with readers in place of processors. Scope equality is assumed to be an equivalence deciding equality, which C64 examines."
 },
 "C58": {
  "note": "Also for Resource::new, the builder and from_detectors. with_schema_url lets existing attributes win; detectors lose their schema URL. Associativity of the URL rule is property C136."
 },
 "C59": {
  "note": "The documented priority is property C116."
 },
 "C78": {
  "note": "Values are not percent-decoded; this is a statement about the code as it is."
 },
 "C60": {
  "note": "Proved for every batch, every iteration order of the hash map and every hasher. Scopes with NaN or minus zero attributes may be split over several groups; each span still appears once under an equal scope."
 },
 "C61": {
  "note": "Version and attributes of the scope are property C117."
 },
 "C62": {
  "note": "Values outside are property C118."
 },
 "C64": {
  "note": "NaN, signed zeros and repeated keys are property C120."
 },
 "C79": {
  "note": "Grouped spans and logs are property C126."
 },
 "C63": {
  "note": "Other names and labels are property C119. Switching scope info off also drops the selected resource labels (C63_selected_resource_labels)."
 },
 "C80": {
  "note": "The two reserved names, and distinct series, are property C127."
 },
 "C65": {
  "note": "Headers given by the program, empty endpoints and %+5 are property C121."
 },
 "C81": {
  "note": "The exceptions are property C128. partial_success is never looked at."
 },
 "C66": {
  "note": "For every interleaving of any number of emitting and calling threads, every queue and batch size (positive batch size for the size and history theorems). max_concurrent_exports has no effect: every export is awaited before the next message is read. What answers do not mean is property C137."
 },
 "C82": {
  "note": "Values with = and keys with %XX are property C129."
 },
 "C83": {
  "note": "Other characters are property C130."
 },
 "C84": {
  "note": "The early limit of the batch size is property C131."
 },
 "C85": {
  "note": "By refinement of the threaded reader (C57). A shutdown queued behind another gets a plain error rather than AlreadyShutdown (C85_nonvacuous); the timeout argument of shutdown is ignored and the result of the shutdown of the exporter is dropped. Readers without provider are property C132."
 },
 "C86": {
  "note": "Every span and log batch the SDK exports with finite floats is covered. JSON text itself (serde_json) is not modelled. Other requests are property C133."
 },
 "C87": {
  "note": "What is lost on the way is property C134."
 },
 "C88": {
  "note": "Default features; the tracing span context and metadata attribute features are not modelled. Map keys, positions and error fields are property C135."
 },
 "C69": {
  "note": "Other callbacks are property C123. The mutex around a span is not modelled."
 },
 "C89": {
  "note": "Refuted: Baggage::remove does not reduce kv_content_len, so space is never given back; C06_insert_acceptance gives the actual rule."
 },
 "C90": {
  "note": "Refuted: '%' is not escaped on injection, so a value such as %41 arrives as A."
 },
 "C91": {
  "note": "Refuted in both directions: empty keys and control characters are accepted, a 14-character system id is rejected."
 },
 "C92": {
  "note": "Refuted: from_str and from_key_value keep repeated keys and delete removes only the first."
 },
 "C93": {
  "note": "Refuted: short ids, '+' signs and a trailing dash are accepted; flags 03 are rejected."
 },
 "C94": {
  "note": "Refuted: the single header 'd' drops the sampled bit of a sampled debug span; the multi header injector leaves a stale x-b3-flags of the carrier in place."
 },
 "C95": {
  "note": "Refuted: SingleHeader also writes x-b3-* for every valid context."
 },
 "C96": {
  "note": "Refuted: a foreign prefixed header that is no trace state key makes extraction drop the whole context."
 },
 "C97": {
  "note": "Refuted: an all-zero span context is installed. Proved (C97_jaeger_partial): what is installed is remote and fits its types."
 },
 "C98": {
  "note": "Refuted: ParentBased asks only whether an active span is present, so the child of an invalid unsampled parent is dropped."
 },
 "C99": {
  "note": "Refuted: whole seconds are truncated on each poll, so a limiter polled more often than once a second starves; a clock that goes back admits everything."
 },
 "C100": {
  "note": "Refuted: set_status only replaces a status by a strictly greater one in the derived order, so an Error description that sorts lower is ignored."
 },
 "C101": {
  "note": "Refuted: an active but invalid parent span passes trace id 0 to recorded children."
 },
 "C102": {
  "note": "Refuted: an end already past its check of the shutdown flag is delivered after shutdown has returned."
 },
 "C103": {
  "note": "Refuted: one ForceFlush exports at most one batch, so with more than max_export_batch_size spans queued it returns Ok leaving spans queued."
 },
 "C104": {
  "note": "Refuted: shutdown exports one batch, drops the rest, and never calls the shutdown of the exporter."
 },
 "C105": {
  "note": "Refuted: the batch processor exports RecordOnly (unsampled) spans; the simple processor does not."
 },
 "C106": {
  "note": "Refuted: an emit between its send and its count makes a flush miss a record emitted before it, and only the last of several exports decides the answer."
 },
 "C107": {
  "note": "Refuted: a count that wrapped to 2^64-1 makes the log worker loop for ever on an empty queue."
 },
 "C108": {
  "note": "Refuted: an emit already past its check is exported after shutdown, and SimpleConcurrentLogProcessor checks nothing."
 },
 "C109": {
  "note": "Refuted by a schedule: a measurement between its update and its store while a collection takes the value makes the next collection report a zero point."
 },
 "C110": {
  "note": "Refuted: they start from f64::MAX and f64::MIN, so a histogram of infinities reports the largest finite double as its minimum."
 },
 "C111": {
  "note": "Refuted: max_size 2 with subnormals drops a counted measurement; the default configuration (160, 20) panics with overflow checks (i32 overflow in scale_change) when the largest and the smallest double are recorded."
 },
 "C112": {
  "note": "Refuted: with an ln as accurate as IEEE allows, a value next to a boundary falls into the neighbouring bucket."
 },
 "C113": {
  "note": "Refuted: a set skipped in one collection restarts from zero; a set given in unsorted order may be keyed differently from one collection to the next."
 },
 "C114": {
  "note": "Refuted: two views whose streams differ only in letter case share one cached aggregator under two raw ids, so each measurement is counted twice."
 },
 "C115": {
  "note": "Refuted for ** (construction fails and the view is dropped), for [ ] patterns (glob classes) and for criteria that only set scope attributes (they match everything)."
 },
 "C116": {
  "note": "Refuted: EnvResourceDetector runs after SdkProvidedResourceDetector, so service.name in OTEL_RESOURCE_ATTRIBUTES overrides OTEL_SERVICE_NAME."
 },
 "C117": {
  "note": "Refuted: group_logs_by_resource_and_scope always passes Some(key) as target, so version and attributes of the scope are dropped and scopes with the same name are merged."
 },
 "C118": {
  "note": "Refuted for u64 values from 2^63 (exported as 0), times before the epoch or past 2^64 ns, and the element type of empty arrays."
 },
 "C119": {
  "note": "Refuted for view names with non-ASCII letters and invalid namespaces; for label names from keys with a leading digit, a colon, or empty; and for uniqueness when an attribute is called like a scope or resource label."
 },
 "C120": {
  "note": "Refuted for NaN (not reflexive), zero and minus zero (equal, different hash) and reordered repeated keys."
 },
 "C121": {
  "note": "Refuted: programmatic headers do not win over the environment (HTTP and gRPC), a programmatic user-agent spelt differently from User-Agent competes with the default in HashMap order, a configured content-type replaces that of the body, an empty programmatic endpoint is an error although the documentation says it selects the default, and %+5 is decoded as an escape."
 },
 "C122": {
  "note": "Refuted for B3 SingleHeader, which writes x-b3-* unannounced, and for custom Jaeger headers with surrounding white space."
 },
 "C123": {
  "note": "Refuted: on_end reading Context::current panics under in_span (issue 2871 of the project), and attaching (for example emitting through a SimpleLogProcessor) inside get_active_span, a sampler or on_start panics."
 },
 "C124": {
  "note": "Refuted: an empty response discards the strategy in force."
 },
 "C125": {
  "note": "Refuted with two readers: callbacks are registered on all pipelines and an observation feeds the measures of every reader."
 },
 "C126": {
  "note": "Refuted for spans and logs: the schema URL of the resource is written into each scope entry."
 },
 "C127": {
  "note": "Refuted: a metric called target_info or otel_scope_info collides with those of the exporter, and two scopes give the same series when scope labels are off."
 },
 "C128": {
  "note": "Refuted: metrics over HTTP report success whatever the status; span exporters and gRPC log exporters still send after shutdown."
 },
 "C129": {
  "note": "Refuted: a value containing '=' is cut at it, and keys are percent-decoded although the grammar gives '%' no meaning in keys."
 },
 "C130": {
  "note": "Refuted: a trace state value or baggage metadata that is not ASCII is written to the request but cannot be read back, which loses the whole trace state or all baggage."
 },
 "C131": {
  "note": "Refuted: the size is reduced to the queue size of the environment before the program overrides the queue, so OTEL_BSP_MAX_QUEUE_SIZE=100 with with_max_queue_size(2048) leaves batches of 100."
 },
 "C132": {
  "note": "Refuted: the worker is only spawned at registration, so force_flush and shutdown block for ever."
 },
 "C133": {
  "note": "Refuted: a NaN or infinite attribute makes a whole trace request unreadable, silently removes all data of a metric (the flattened Option swallows the error), and a NaN data point value is silently lost; an empty AnyValue cannot be read; exemplar values are nested under value instead of being a field of the exemplar."
 },
 "C134": {
  "note": "Refuted: a root span is sent with a parent id of zeros, the resource (service name) never reaches Zipkin, an attribute called error is dropped even with an unset status, and strings inside arrays are not escaped, so different arrays give one tag."
 },
 "C135": {
  "note": "Refuted: map keys that are not text become their Debug form, nulls inside a sequence shift positions, and the name of an error field is lost."
 },
 "C136": {
  "note": "Refuted for the schema URL (a conflict is forgotten by a later merge); attributes are associative (C58_laws)."
 },
 "C137": {
  "note": "Refuted: a successful flush does not report failures of earlier full batches, and the shutdown of the span processor answers before it shuts the exporter down."
 },
 "C138": {
  "note": "Threads interleave at the steps of the mutex; linearized order is the order of taking the lock. BoxedSpan and the Span trait defaults are part of the model."
 },
 "C139": {
  "note": "Refuted: end() runs on_end while the mutex of the span is held, so a processor that asks cx.span().is_recording() blocks its own thread for ever; set_attributes pulls the caller's iterator under the lock. C139_reentry_blocks states when it happens."
 },
 "C140": {
  "note": "Refuted: a panic under the lock poisons the mutex; later calls on the same span, end included, do nothing. What was recorded before the panic is kept (C140_before_the_panic_kept)."
 },
 "C141": {
  "note": "GDrop is the drop of a handle; the count of owners is part of the state."
 },
 "C142": {
  "note": "Refuted: set_meter_provider and set_text_map_propagator drop the old value while the write lock is held; a propagator closure that sets a propagator, or reads again while a writer waits, blocks. A provider that someone still owns is not dropped (C142_kept_provider_not_dropped)."
 },
 "C143": {
  "note": "Uses the W3C trace context and baggage propagators of C09-C12 and C05-C08."
 },
 "C144": {
  "note": "Refuted for NoopTextMapPropagator, the default global propagator: it returns Context::current() instead of the given context. True when the given context is the current one."
 },
 "C145": {
  "note": "One call is one critical section; the metric exporter's clone_metrics is modelled field by field over the types of the OTLP model. keep_records_on_shutdown is covered as a parameter."
 },
 "C146": {
  "note": "Conditional guarantee; the unconditional one is C147."
 },
 "C147": {
  "note": "Refuted: get_emitted_logs pairs all stored records with the resource set last."
 },
 "C148": {
  "note": "Uses the sample relation of C63; whether a metric is left out is C80."
 },
 "C149": {
  "note": "Refuted: otel_scope_info is emitted because the scope has attributes but carries only name and version, so they are lost and two such scopes repeat a series."
 },
 "C150": {
  "note": "Composition of the batch processor model (BatchModel.v) with the OTLP conversion (OtlpModel.v); the exporter answers, and retries or transport losses are outside the model. Ids are required to differ only among the calls made (an earlier form asked it of an infinite sequence, which ids of 192 bits cannot meet)."
 },
 "C151": {
  "note": "Calls do not overlap (C42, C45 have the interleavings); instruments with two streams whose names differ only in case are excepted (C114); start times are C75."
 },
 "C152": {
  "note": "Refuted: OTEL_METRIC_EXPORT_INTERVAL=0 is accepted, and with_interval(0) keeps it; C84_zero_interval proves that this is the only way."
 },
 "C153": {
  "note": "Lines are modelled as their fixed text with the values formatted into them; the text of a value (escaping, newlines inside a name, chrono's format) is not. Not readable by design: trace state, dropped counts, flags of links, exemplars, points of exponential histograms (C154)."
 },
 "C154": {
  "note": "False: print_info prints only the type of an exponential histogram (metrics/exporter.rs:127-129). All other points are printed (C153_metrics_readable)."
 },
 "C155": {
  "note": "Clones are counted, not named; shutting a provider down is assumed to drop no clones itself."
 },
 "C156": {
  "note": "Every builder call sequence; the started span is described through SpanModel's build_with_context (same model as C25-C29)."
 },
 "C157": {
  "note": "Refuted in three ways (links without valid context vanish; differs from add_link; given dropped counts overwritten); with only valid links the first part is proved (_partial).",
  "status": "partial"
 },
 "C158": {
  "note": "The encoder is prost's, modelled from the generated attributes; the reader is an independent specification. A zero threshold of -0.0 is not written (C158_negative_zero_threshold); the SDK always sends 0.0."
 },
 "C159": {
  "note": "Root parents differ from exports (zero bytes against empty), stated in the theorems."
 },
 "C160": {
  "note": "C160_last_answer_in_force, C160_decisions and C160_limit_over_changes by induction over histories; C160_answers_read and C160_nothing_else_read give the documents."
 },
 "C161": {
  "note": "Refuted: the task itself holds an Arc of the inner state whose destructor would stop it, so it never ends and keeps sending requests (C161_task_ends_refuted).",
  "status": "partial"
 },
 "C162": {
  "note": "Refuted: RATE_LIMITING is not understood (the derived name is RATELIMITING), nor answers that leave out the type or a bound. C160_answers_read says which are.",
  "status": "partial"
 },
 "C163": {
  "note": "C163_service_asked_for, C163_errors; url::Url::parse is a parameter."
 },
 "C164": {
  "note": "Refuted: the endpoint's service is sent too, and first (C164_service_in_endpoint_ignored_refuted).",
  "status": "partial"
 },
 "C165": {
  "note": "Streams of all kinds, with attribute values of decidable equality. Exponential histograms with at least 3 buckets and scales from -10 to 20; at scale 20 measurements are zero or at least 2^-1022 in magnitude (C111 has the failures outside). Integer totals must be in the range of the signed 64-bit field, see C62."
 },
 "C167": {
  "note": "Refuted: elements are put between quotes without escaping."
 },
 "C169": {
  "note": "Refuted by a number and a text that look the same, and by two keys with the same label name; C168 states when series are distinct."
 },
 "C170": {
  "note": "A waiting SetResource message takes no room from the other control messages in the model."
 },
 "C171": {
  "note": "Refuted for spans and for log records: the timer fires, the provider is built and the first record queued, then the thread drains the data channel before it reads the control channel. C170 bounds what can go wrong."
 },
 "C172": {
  "note": "== of resources distinguishes all values but 0.0 and -0.0."
 },
 "C173": {
  "note": "C173_one_request: any two lists of propagators with a common format hand on trace id, span id and flags; C173_no_common_format: else nothing arrives; C173_any_number_of_requests and C173_tree_across_services: by induction over requests and trees. Flags 0 or 1 and default Jaeger names; C174 has the counterexample for flags 5."
 },
 "C174": {
  "note": "Refuted: flags 5 (debug and sampled) become 4 through the single B3 header; the receiver's spans are not sampled and not recorded.",
  "status": "partial"
 },
 "C175": {
  "note": "C175_scraped: the collection of C151 composed with PromModel.collect; the families shown are a permutation of the info metrics and, per stream, the samples of its attribute sets. Beyond the cardinality limit the points are those of C151_exported. A reader with cumulative temporality, as the exporter's is. Observable: last observation of the collection."
 },
 "C176": {
  "note": "Refuted: C176_all_shown_refuted, a measured exponential histogram (selected by a view) is missing from a scrape that succeeds. C175 states when a stream is shown."
 },
 "C177": {
  "note": "Composition of C25-C28, C156, C150 and C158. An on_start that changes the span and losses in transport are outside; that ids differ is what the id generator is for."
 },
 "C178": {
  "note": "Composition of C37, C39, C41, C61, C88, C150 and C158. A processor that changes the record and losses in transport are outside; of the scope only the name is told (C117)."
 }
}