(** Samplers: opentelemetry-sdk/src/trace/sampler.rs and
    opentelemetry-sdk/src/trace/sampler/jaeger_remote/. *)
From Coq Require Import List NArith ZArith Bool.
From Verif Require Import Str ContextModel TraceModel Carrier F64.
Import ListNotations.
Local Open Scope Z_scope.

(** [SamplingDecision] (opentelemetry/src/trace/tracer.rs:332-345). *)
Inductive decision := Drop | RecordOnly | RecordAndSample.

(** [sample_based_on_probability] (sampler.rs:228-246). *)
Definition sample_prob (prob : f64) (trace_id : N) : decision :=
  if f64_leb (f64_of_Z 1) prob then RecordAndSample
  else
    let upper := f64_to_u64 (f64_mul (f64_max prob (f64_of_Z 0)) (f64_of_Z (2 ^ 63))) in
    let low := (trace_id mod 2 ^ 64)%N in
    if Z.of_N (N.shiftr low 1) <? upper then RecordAndSample else Drop.

(** [LeakyBucket] (rate_limit.rs:5-66); times are nanoseconds. *)
Record bucket := mk_bucket { lb_rate : f64; lb_available : f64; lb_size : f64; lb_last : Z }.
Definition lb_new (size rate : f64) (now : Z) : bucket := mk_bucket rate size size now.
Definition lb_update (rate : f64) (b : bucket) : bucket := mk_bucket rate (lb_available b) (lb_size b) (lb_last b).
(** [check_availability] (rate_limit.rs:31-66). *)
Definition lb_check (b : bucket) (now : Z) : bool * bucket :=
  let one := f64_of_Z 1 in
  if f64_leb one (lb_available b) then
    (true, mk_bucket (lb_rate b) (f64_sub (lb_available b) one) (lb_size b) (lb_last b))
  else if now <? lb_last b then (true, b)
  else
    let secs := (now - lb_last b) / 10 ^ 9 in
    let available := f64_min (f64_add (f64_mul (f64_of_Z secs) (lb_rate b)) (lb_available b)) (lb_size b) in
    if f64_leb one available then (true, mk_bucket (lb_rate b) (f64_sub available one) (lb_size b) now)
    else (false, mk_bucket (lb_rate b) available (lb_size b) now).

(** [PerOperationStrategies] (sampling_strategy.rs:187-226); the two throughput
    bounds are stored by the code and never read.  The operations form a map;
    a later entry for the same operation replaces an earlier one. *)
Record per_op := mk_per_op { po_default : f64; po_ops : list (str * f64) }.
Fixpoint po_find (ops : list (str * f64)) (name : str) : option f64 :=
  match ops with
  | [] => None
  | (k, p) :: r => match po_find r name with
                   | Some q => Some q
                   | None => if str_eqb k name then Some p else None
                   end
  end.
Definition po_probability (p : per_op) (name : str) : f64 :=
  match po_find (po_ops p) name with Some q => q | None => po_default p end.

Inductive strategy :=
| Probabilistic (p : f64)
| RateLimiting (b : bucket)
| PerOperation (p : per_op).

(** [SamplingStrategyResponse] (remote.rs:10-62): the rate is an i32. *)
Record response := mk_response {
  rs_operation : option per_op; rs_rate : option Z; rs_prob : option f64 }.

(** [init_strategy] (sampling_strategy.rs:112-142). *)
Definition init_strategy (size : f64) (now : Z) (r : response) : option strategy :=
  match rs_operation r, rs_rate r, rs_prob r with
  | Some op, _, _ => Some (PerOperation op)
  | _, Some rate, _ => Some (RateLimiting (lb_new size (f64_of_Z rate) now))
  | _, _, Some p => Some (Probabilistic p)
  | _, _, _ => None
  end.
(** [Inner::update] (sampling_strategy.rs:60-110).  Simplification: the mutex
    is not poisoned. *)
Definition js_update (size : f64) (now : Z) (old : option strategy) (r : response) : option strategy :=
  match old with
  | Some o =>
    match rs_operation r, rs_rate r, rs_prob r, o with
    | None, Some rate, None, RateLimiting b => Some (RateLimiting (lb_update (f64_of_Z rate) b))
    | _, _, _, _ => init_strategy size now r
    end
  | None => init_strategy size now r
  end.
(** [Inner::should_sample] (sampling_strategy.rs:144-185). *)
Definition js_decide (s : option strategy) (now : Z) (trace_id : N) (name : str) : option decision * option strategy :=
  match s with
  | None => (None, None)
  | Some (RateLimiting b) =>
    let (ok, b') := lb_check b now in
    (Some (if ok then RecordAndSample else Drop), Some (RateLimiting b'))
  | Some (Probabilistic p) => (Some (sample_prob p trace_id), s)
  | Some (PerOperation p) => (Some (sample_prob (po_probability p name) trace_id), s)
  end.

(** What a sampler is asked about (sampler.rs:165-173): name, kind, attributes
    and links are of an arbitrary type [A]. *)
Section sampler.
Context {V A : Type}.
Definition sctx := context span_context V.

(** [Sampler] (sampler.rs:113-135).  [Custom] stands for a user's
    [ShouldSample]; the remote sampler with a fixed strategy is [Remote]. *)
Inductive sampler :=
| AlwaysOn
| AlwaysOff
| ParentBased (delegate : sampler)
| TraceIdRatioBased (p : f64)
| Custom (f : option sctx -> N -> A -> decision).

(** [has_active_span] (opentelemetry/src/trace/context.rs:354-356). *)
Definition has_active_span (cx : sctx) : bool := match cx_span cx with Some _ => true | None => false end.

(** [should_sample] (sampler.rs:165-226), decision. *)
Fixpoint decide (s : sampler) (parent : option sctx) (trace_id : N) (a : A) : decision :=
  match s with
  | AlwaysOn => RecordAndSample
  | AlwaysOff => Drop
  | ParentBased d =>
    match (match parent with Some cx => if has_active_span cx then Some cx else None | None => None end) with
    | None => decide d parent trace_id a
    | Some cx => if sc_is_sampled (cx_span_context cx) then RecordAndSample else Drop
    end
  | TraceIdRatioBased p => sample_prob p trace_id
  | Custom f => f parent trace_id a
  end.
(** The trace state of the result (sampler.rs:220-224). *)
Definition sampled_state (parent : option sctx) : tstate :=
  match parent with Some cx => sc_state (cx_span_context cx) | None => None end.
End sampler.
Arguments sampler : clear implicits.
Arguments sctx : clear implicits.
