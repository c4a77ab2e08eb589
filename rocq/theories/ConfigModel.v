(** Configuration of the trace pipeline from the environment and from builder
    calls: [trace::Config::default] (opentelemetry-sdk/src/trace/config.rs:29-136),
    the limit and sampler methods of [TracerProviderBuilder]
    (trace/provider.rs:349-395) and the two [BatchConfigBuilder]s
    (trace/span_processor.rs:690-851, logs/batch_log_processor.rs:600-733).

    Simplifications: durations are counted in milliseconds; [usize] has 64 bits;
    [f64::from_str] is a parameter [parse_f64]; warnings are not modelled; the
    environment does not change while a builder is created; the resource and
    the id generator are left out (C58, C59, C29). *)
From Coq Require Import String List NArith Bool.
From Verif Require Import Str F64 ContextModel TraceModel Carrier SamplerModel.
Import ListNotations.
Local Open Scope N_scope.

(** [env::var(name).ok()]. *)
Definition environment := str -> option str.

(** [env::var(name).ok().and_then(|v| uN::from_str(&v).ok())]. *)
Definition env_num (bound : N) (env : environment) (name : string) : option N :=
  match env (of_string name) with Some v => parse_dec bound v | None => None end.
(** [if let Some(x) = ... { field = x }]. *)
Definition or_keep (o : option N) (d : N) : N := match o with Some x => x | None => d end.

(** ** Span limits (trace/span_limit.rs:10-46) *)
Record limits := mk_limits {
  l_events : N; l_attrs : N; l_links : N; l_event_attrs : N; l_link_attrs : N }.
Definition limits_default : limits := mk_limits 128 128 128 128 128.

Section config.
Context {V A : Type} (parse_f64 : str -> option f64) (f64_one : f64).

Record config := mk_config { c_sampler : sampler V A; c_limits : limits }.

(** The ratio of the two ratio samplers (config.rs:63-76, 83-100). *)
Definition sampler_ratio (arg : option str) : f64 :=
  match arg with
  | Some r => match parse_f64 r with Some x => x | None => f64_one end
  | None => f64_one
  end.

(** The [match sampler.as_str()] (config.rs:60-131). *)
Definition sampler_from_env (env : environment) : sampler V A :=
  let arg := env (of_string "OTEL_TRACES_SAMPLER_ARG") in
  match env (of_string "OTEL_TRACES_SAMPLER") with
  | None => ParentBased AlwaysOn
  | Some s =>
    if str_eqb s (of_string "always_on") then AlwaysOn
    else if str_eqb s (of_string "always_off") then AlwaysOff
    else if str_eqb s (of_string "traceidratio") then TraceIdRatioBased (sampler_ratio arg)
    else if str_eqb s (of_string "parentbased_always_on") then ParentBased AlwaysOn
    else if str_eqb s (of_string "parentbased_always_off") then ParentBased AlwaysOff
    else if str_eqb s (of_string "parentbased_traceidratio") then ParentBased (TraceIdRatioBased (sampler_ratio arg))
    else ParentBased AlwaysOn
  end.

(** [Config::default] (config.rs:29-136). *)
Definition config_default (env : environment) : config :=
  mk_config (sampler_from_env env)
    (mk_limits
       (or_keep (env_num (2 ^ 32) env "OTEL_SPAN_EVENT_COUNT_LIMIT") (l_events limits_default))
       (or_keep (env_num (2 ^ 32) env "OTEL_SPAN_ATTRIBUTE_COUNT_LIMIT") (l_attrs limits_default))
       (or_keep (env_num (2 ^ 32) env "OTEL_SPAN_LINK_COUNT_LIMIT") (l_links limits_default))
       (l_event_attrs limits_default) (l_link_attrs limits_default)).

(** The builder methods (provider.rs:349-395). *)
Inductive tp_call :=
| WithSampler (s : sampler V A)
| WithMaxEvents (n : N)
| WithMaxAttrs (n : N)
| WithMaxLinks (n : N)
| WithMaxEventAttrs (n : N)
| WithMaxLinkAttrs (n : N)
| WithLimits (l : limits).
Definition tp_apply (c : config) (x : tp_call) : config :=
  let l := c_limits c in
  match x with
  | WithSampler s => mk_config s l
  | WithMaxEvents n => mk_config (c_sampler c) (mk_limits n (l_attrs l) (l_links l) (l_event_attrs l) (l_link_attrs l))
  | WithMaxAttrs n => mk_config (c_sampler c) (mk_limits (l_events l) n (l_links l) (l_event_attrs l) (l_link_attrs l))
  | WithMaxLinks n => mk_config (c_sampler c) (mk_limits (l_events l) (l_attrs l) n (l_event_attrs l) (l_link_attrs l))
  | WithMaxEventAttrs n => mk_config (c_sampler c) (mk_limits (l_events l) (l_attrs l) (l_links l) n (l_link_attrs l))
  | WithMaxLinkAttrs n => mk_config (c_sampler c) (mk_limits (l_events l) (l_attrs l) (l_links l) (l_event_attrs l) n)
  | WithLimits l' => mk_config (c_sampler c) l'
  end.
Definition tp_build (env : environment) (calls : list tp_call) : config :=
  fold_left tp_apply calls (config_default env).
End config.
Arguments config : clear implicits.
Arguments tp_call : clear implicits.

(** ** Batch processors *)
Record batch := mk_batch { b_queue : N; b_delay : N; b_batch : N; b_timeout : N; b_concurrent : N }.

(** [BatchConfigBuilder::default] of the span processor with
    [init_from_env_vars] (span_processor.rs:699-722, 808-850): the batch size is
    already reduced to the queue size here. *)
Definition span_batch_default (env : environment) : batch :=
  let queue := or_keep (env_num (2 ^ 64) env "OTEL_BSP_MAX_QUEUE_SIZE") 2048 in
  let size := or_keep (env_num (2 ^ 64) env "OTEL_BSP_MAX_EXPORT_BATCH_SIZE") 512 in
  mk_batch queue
    (or_keep (env_num (2 ^ 64) env "OTEL_BSP_SCHEDULE_DELAY") 5000)
    (if queue <? size then queue else size)
    (or_keep (env_num (2 ^ 64) env "OTEL_BSP_EXPORT_TIMEOUT") 30000)
    (or_keep (env_num (2 ^ 64) env "OTEL_BSP_MAX_CONCURRENT_EXPORTS") 1).
(** The same of the log processor (batch_log_processor.rs:610-631, 701-732),
    with its async-runtime feature on; it has no concurrency setting. *)
Definition log_batch_default (env : environment) : batch :=
  mk_batch
    (or_keep (env_num (2 ^ 64) env "OTEL_BLRP_MAX_QUEUE_SIZE") 2048)
    (or_keep (env_num (2 ^ 64) env "OTEL_BLRP_SCHEDULE_DELAY") 1000)
    (or_keep (env_num (2 ^ 64) env "OTEL_BLRP_MAX_EXPORT_BATCH_SIZE") 512)
    (or_keep (env_num (2 ^ 64) env "OTEL_BLRP_EXPORT_TIMEOUT") 30000)
    1.

(** The builder methods (span_processor.rs:724-790, batch_log_processor.rs:633-683). *)
Inductive batch_call := WithQueue (n : N) | WithDelay (n : N) | WithBatch (n : N) | WithTimeout (n : N) | WithConcurrent (n : N).
Definition batch_apply (b : batch) (x : batch_call) : batch :=
  match x with
  | WithQueue n => mk_batch n (b_delay b) (b_batch b) (b_timeout b) (b_concurrent b)
  | WithDelay n => mk_batch (b_queue b) n (b_batch b) (b_timeout b) (b_concurrent b)
  | WithBatch n => mk_batch (b_queue b) (b_delay b) n (b_timeout b) (b_concurrent b)
  | WithTimeout n => mk_batch (b_queue b) (b_delay b) (b_batch b) n (b_concurrent b)
  | WithConcurrent n => mk_batch (b_queue b) (b_delay b) (b_batch b) (b_timeout b) n
  end.
(** [build] (span_processor.rs:792-806, batch_log_processor.rs:685-699). *)
Definition batch_build (b : batch) : batch :=
  mk_batch (b_queue b) (b_delay b) (N.min (b_batch b) (b_queue b)) (b_timeout b) (b_concurrent b).
Definition span_batch (env : environment) (calls : list batch_call) : batch :=
  batch_build (fold_left batch_apply calls (span_batch_default env)).
Definition log_batch (env : environment) (calls : list batch_call) : batch :=
  batch_build (fold_left batch_apply calls (log_batch_default env)).

(** ** Periodic readers *)
Record reader := mk_reader { r_interval : N; r_timeout : N }.
(** [PeriodicReaderBuilder::new] (metrics/periodic_reader.rs:39-46,
    periodic_reader_with_async_runtime.rs:60-76); only the latter has a timeout. *)
Definition reader_default (env : environment) : reader :=
  mk_reader (or_keep (env_num (2 ^ 64) env "OTEL_METRIC_EXPORT_INTERVAL") 60000)
    (or_keep (env_num (2 ^ 64) env "OTEL_METRIC_EXPORT_TIMEOUT") 30000).
(** [with_interval], [with_timeout] (periodic_reader.rs:55-60,
    periodic_reader_with_async_runtime.rs:85-105). *)
Inductive reader_call := WithInterval (n : N) | WithExportTimeout (n : N).
Definition reader_apply (r : reader) (x : reader_call) : reader :=
  match x with
  | WithInterval n => if n =? 0 then r else mk_reader n (r_timeout r)
  | WithExportTimeout n => if n =? 0 then r else mk_reader (r_interval r) n
  end.
Definition reader_build (env : environment) (calls : list reader_call) : reader := fold_left reader_apply calls (reader_default env).
