(** The conversions to OTLP messages: opentelemetry-proto/src/transform.
    Messages are modelled as records of the fields the conversions set; fields set to a
    constant default (metadata, dropped_attributes_count of resources, data point flags,
    entity_refs) are left out.  AnyValue's inner [Option] is always [Some] here, so it is
    left out too.  Counters already typed u32/u64/i32 on both sides are copied. *)
From Coq Require Import String List NArith ZArith Bool.
From Verif Require Import Str F64 TraceModel SpanModel LogModel AttrModel KvModel.
Import ListNotations.
Local Open Scope Z_scope.

(** ** Values *)
(** any_value::Value (proto common.v1). *)
Inductive any :=
| PString (s : str) | PBool (b : bool) | PInt (z : Z) | PDouble (f : f64)
| PArray (l : list any) | PKvlist (l : list (str * any)) | PBytes (b : list N).

(** From<Value> for AnyValue and array_into_proto (transform/common.rs:138-169). *)
Definition any_of_value (v : value) : any :=
  match v with
  | VBool b => PBool b
  | VI64 z => PInt z
  | VF64 f => PDouble f
  | VString s => PString s
  | VArray (ABool l) => PArray (map PBool l)
  | VArray (AI64 l) => PArray (map PInt l)
  | VArray (AF64 l) => PArray (map PDouble l)
  | VArray (AString l) => PArray (map PString l)
  end.
(** Attributes::from (transform/common.rs:111-122). *)
Definition attrs_msg (l : list attr) : list (str * any) := map (fun kv => (fst kv, any_of_value (snd kv))) l.

(** AnyValue of log bodies and attributes (opentelemetry/src/logs/record.rs:72-87); a map
    is the list of its entries in iteration order. *)
Inductive lany :=
| LInt (z : Z) | LDouble (f : f64) | LString (s : str) | LBool (b : bool) | LBytes (b : list N)
| LList (l : list lany) | LMap (l : list (str * lany)).
(** From<LogsAnyValue> for Value (transform/logs.rs:27-57). *)
Fixpoint any_of_log (v : lany) : any :=
  match v with
  | LDouble f => PDouble f
  | LInt i => PInt i
  | LString s => PString s
  | LBool b => PBool b
  | LList l => PArray (map any_of_log l)
  | LMap l => PKvlist (map (fun kv => (fst kv, any_of_log (snd kv))) l)
  | LBytes b => PBytes b
  end.

(** to_nanos (transform/common.rs:11-15): a SystemTime is its distance from the epoch in
    nanoseconds; [as u64] keeps the low 64 bits. *)
Definition to_nanos (t : Z) : Z := if t <? 0 then 0 else t mod 2 ^ 64.

(** ** Scopes and resources *)
Record pscope := mk_pscope { ps_name : str; ps_version : str; ps_attrs : list (str * any) }.
Definition or_empty (o : option str) : str := match o with Some s => s | None => [] end.
(** From<(&InstrumentationScope, Option<Cow<str>>)> (transform/common.rs:45-105). *)
Definition scope_msg (sc : scope) (target : option str) : pscope :=
  match target with
  | Some t => mk_pscope t [] []
  | None => mk_pscope (sc_name sc) (or_empty (sc_version sc)) (attrs_msg (sc_attrs sc))
  end.
(** ResourceAttributesWithSchema (transform/common.rs:25-40). *)
Record resource := mk_resource { re_attrs : list attr; re_url : option str }.

(** HashMap<K, Vec<T>>: [entry(k).or_default().push(x)].  [same k k'] says whether the
    map finds the entry stored under [k'] when asked for [k]; for keys whose Hash agrees
    with their Eq this is [==]. *)
Section group.
Context {K T : Type} (same : K -> K -> bool).
Fixpoint push (k : K) (x : T) (m : list (K * list T)) : list (K * list T) :=
  match m with
  | [] => [(k, [x])]
  | (k', l) :: m => if same k k' then (k', l ++ [x]) :: m else (k', l) :: push k x m
  end.
Definition group (key : T -> K) (l : list T) : list (K * list T) := fold_left (fun m x => push (key x) x m) l [].
End group.

(** ** Spans *)
Definition kind_msg (k : N) : Z := match k with 0%N => 3 | 1%N => 2 | 2%N => 4 | 3%N => 5 | _ => 1 end.
Definition status_code (s : status) : Z := match s with Unset => 0 | StatusOk => 1 | Error _ => 2 end.
Definition status_message (s : status) : str := match s with Error d => d | _ => [] end.

Record plink := mk_plink { pl_trace : list N; pl_span : list N; pl_state : str; pl_attrs : list (str * any); pl_dropped : N; pl_flags : N }.
(** From<Link> (transform/trace.rs:36-47). *)
Definition link_msg (l : @link attr) : plink :=
  mk_plink (trace_id_to_bytes (sc_trace (ln_sc l))) (span_id_to_bytes (sc_span (ln_sc l))) (ts_header (TraceModel.sc_state (ln_sc l)))
    (attrs_msg (ln_attrs l)) (ln_dropped l) (sc_flags (ln_sc l)).
Record pevent := mk_pevent { pe_time : Z; pe_name : str; pe_attrs : list (str * any); pe_dropped : N }.
Definition event_msg (e : @event attr) : pevent := mk_pevent (to_nanos (ev_time e)) (ev_name e) (attrs_msg (ev_attrs e)) (ev_dropped e).

(** A finished span as exporters get it: SpanData with its scope
    (opentelemetry-sdk/src/trace/export.rs:70-107). *)
Record sdata := mk_sdata { d_ctx : span_context; d_data : @span_data attr; d_scope : scope }.
Record pspan := mk_pspan {
  p_trace : list N; p_span : list N; p_state : str; p_parent : list N; p_flags : N; p_name : str; p_kind : Z;
  p_start : Z; p_end : Z; p_attrs : list (str * any); p_attrs_dropped : N; p_events : list pevent; p_events_dropped : N;
  p_links : list plink; p_links_dropped : N; p_code : Z; p_message : str }.
(** From<SpanData> for Span (transform/trace.rs:48-91); ResourceSpans::new repeats it
    (95-150). *)
Definition span_msg (s : sdata) : pspan :=
  let c := d_ctx s in let d := d_data s in
  mk_pspan (trace_id_to_bytes (sc_trace c)) (span_id_to_bytes (sc_span c)) (ts_header (TraceModel.sc_state c))
    (if N.eqb (sd_parent d) 0 then [] else span_id_to_bytes (sd_parent d)) (sc_flags c) (sd_name d) (kind_msg (sd_kind d))
    (to_nanos (sd_start d)) (to_nanos (sd_end d)) (attrs_msg (sd_attrs d)) (sd_attrs_dropped d)
    (map event_msg (sd_events d)) (sd_events_dropped d) (map link_msg (sd_links d)) (sd_links_dropped d)
    (status_code (sd_status d)) (status_message (sd_status d)).

(** ScopeSpans, ResourceSpans and their log counterparts: a scope with its schema URL and
    its items, a resource with its schema URL and its scopes. *)
Record pscoped (T : Type) := mk_scoped { g_scope : pscope; g_url : str; g_items : list T }.
Arguments mk_scoped {T}. Arguments g_scope {T}. Arguments g_url {T}. Arguments g_items {T}.
Record presource (T : Type) := mk_presource { r_rattrs : list (str * any); r_rurl : str; r_groups : list (pscoped T) }.
Arguments mk_presource {T}. Arguments r_rattrs {T}. Arguments r_rurl {T}. Arguments r_groups {T}.

(** group_spans_by_resource_and_scope (transform/trace.rs:153-189).  [order] is the
    iteration order of the hash map: any function that permutes the entries. *)
Definition spans_msg (same : scope -> scope -> bool) (order : list (scope * list sdata) -> list (scope * list sdata))
    (spans : list sdata) (r : resource) : presource pspan :=
  mk_presource (attrs_msg (re_attrs r)) (or_empty (re_url r))
    (map (fun g => mk_scoped (scope_msg (fst g) None) (or_empty (re_url r)) (map span_msg (snd g))) (order (group same d_scope spans))).
(** ResourceSpans::new (transform/trace.rs:95-150). *)
Definition resource_spans_new (s : sdata) (r : resource) : presource pspan :=
  mk_presource (attrs_msg (re_attrs r)) (or_empty (re_url r)) [mk_scoped (scope_msg (d_scope s) None) (or_empty (sc_url (d_scope s))) [span_msg s]].

(** ** Logs *)
Definition lrec : Type := @logrec (str * lany) lany.
Record plog := mk_plog {
  q_time : Z; q_observed : Z; q_attrs : list (str * any); q_event : str; q_sev : Z; q_sevtext : str; q_body : option any;
  q_flags : N; q_span : list N; q_trace : list N }.
Definition omap {A B} (f : A -> B) (d : B) (o : option A) : B := match o with Some a => f a | None => d end.
(** From<&SdkLogRecord> for LogRecord (transform/logs.rs:59-127); severities have the
    same numbers on both sides.  [None]: the [unwrap] of a missing observed timestamp
    panics. *)
Definition log_msg (r : lrec) : option plog :=
  match lr_observed r with
  | None => None
  | Some o => Some (mk_plog (omap to_nanos 0 (lr_time r)) (to_nanos o)
      (map (fun kv => (fst kv, any_of_log (snd kv))) (attributes r)) (or_empty (lr_event r)) (omap Z.of_N 0 (lr_sev r)) (or_empty (lr_sevtext r))
      (option_map any_of_log (lr_body r)) (omap (fun t => omap id 0%N (tc_flags t)) 0%N (lr_trace r))
      (omap (fun t => span_id_to_bytes (tc_span t)) [] (lr_trace r)) (omap (fun t => trace_id_to_bytes (tc_trace t)) [] (lr_trace r)))
  end.
Fixpoint all_some {A} (l : list (option A)) : option (list A) :=
  match l with
  | [] => Some []
  | Some a :: l => option_map (cons a) (all_some l)
  | None :: _ => None
  end.
(** The key records are grouped by (transform/logs.rs:172-190). *)
Definition log_key (r : lrec * scope) : str := match lr_target (fst r) with Some t => t | None => sc_name (snd r) end.
(** group_logs_by_resource_and_scope (transform/logs.rs:167-217). *)
Definition log_group_msg (r : resource) (g : str * list (lrec * scope)) : option (pscoped plog) :=
  match snd g with
  | [] => None
  | first :: _ => option_map (mk_scoped (scope_msg (snd first) (Some (fst g))) (or_empty (re_url r))) (all_some (map (fun x => log_msg (fst x)) (snd g)))
  end.
Definition logs_msg (order : list (str * list (lrec * scope)) -> list (str * list (lrec * scope))) (logs : list (lrec * scope)) (r : resource)
    : option (presource plog) :=
  option_map (mk_presource (attrs_msg (re_attrs r)) (or_empty (re_url r))) (all_some (map (log_group_msg r) (order (group str_eqb log_key logs)))).
(** From<((&SdkLogRecord, &InstrumentationScope), &ResourceAttributesWithSchema)> for
    ResourceLogs (transform/logs.rs:129-165). *)
Definition resource_logs_from (x : lrec * scope) (r : resource) : option (presource plog) :=
  option_map (fun m => mk_presource (attrs_msg (re_attrs r)) (or_empty (re_url r)) [mk_scoped (scope_msg (snd x) (lr_target (fst x))) (or_empty (sc_url (snd x))) [m]]) (log_msg (fst x)).

(** ** Metrics *)
(** number_data_point::Value and exemplar::Value (transform/metrics.rs:41-75). *)
Inductive pnum := AsInt (z : Z) | AsDouble (f : f64).
Definition num_of_u64 (z : Z) : pnum := AsInt (if z <? 2 ^ 63 then z else 0).
Definition num_of_i64 (z : Z) : pnum := AsInt z.
Definition num_of_f64 (f : f64) : pnum := AsDouble f.
(** Temporality (transform/metrics.rs:95-111): anything but Delta is Cumulative. *)
Inductive temporality := Cumulative | Delta | LowMemory.
Definition temporality_msg (t : temporality) : Z := match t with Cumulative => 2 | Delta => 1 | LowMemory => 2 end.

Section metrics.
Context {T : Type}.
(** opentelemetry-sdk/src/metrics/data/mod.rs:110-290. *)
Record exemplar := mk_ex { x_attrs : list attr; x_time : Z; x_value : T; x_span : list N; x_trace : list N }.
Record npoint := mk_np { n_attrs : list attr; n_value : T; n_ex : list exemplar }.
Record hpoint := mk_hp { h_attrs : list attr; h_count : N; h_bounds : list f64; h_buckets : list N; h_min : option T; h_max : option T; h_sum : T; h_ex : list exemplar }.
Record epoint := mk_ep { e_attrs : list attr; e_count : N; e_min : option T; e_max : option T; e_sum : T; e_scale : Z; e_zero : N;
  e_pos : Z * list N; e_neg : Z * list N; e_threshold : f64; e_ex : list exemplar }.
Inductive mdata :=
| MGauge (points : list npoint) (start : option Z) (time : Z)
| MSum (points : list npoint) (start time : Z) (t : temporality) (monotonic : bool)
| MHist (points : list hpoint) (start time : Z) (t : temporality)
| MExpo (points : list epoint) (start time : Z) (t : temporality).
End metrics.
Arguments exemplar : clear implicits. Arguments npoint : clear implicits. Arguments hpoint : clear implicits. Arguments epoint : clear implicits. Arguments mdata : clear implicits.

Record pexemplar := mk_pex { px_attrs : list (str * any); px_time : Z; px_span : list N; px_trace : list N; px_value : pnum }.
Record pnpoint := mk_pnp { pn_attrs : list (str * any); pn_start : Z; pn_time : Z; pn_ex : list pexemplar; pn_value : pnum }.
Record phpoint := mk_php { ph_attrs : list (str * any); ph_start : Z; ph_time : Z; ph_count : N; ph_sum : f64; ph_buckets : list N; ph_bounds : list f64; ph_ex : list pexemplar; ph_min : option f64; ph_max : option f64 }.
Record pepoint := mk_pep { pp_attrs : list (str * any); pp_start : Z; pp_time : Z; pp_count : N; pp_sum : f64; pp_scale : Z; pp_zero : N;
  pp_pos : Z * list N; pp_neg : Z * list N; pp_ex : list pexemplar; pp_min : option f64; pp_max : option f64; pp_threshold : f64 }.
Inductive pdata :=
| PGauge (points : list pnpoint)
| PSum (points : list pnpoint) (t : Z) (monotonic : bool)
| PHist (points : list phpoint) (t : Z)
| PExpo (points : list pepoint) (t : Z).

Section convert.
(** Numeric (transform/metrics.rs:180-200): how a measurement type becomes a number of a
    data point and a float. *)
Context {T : Type} (num : T -> pnum) (flt : T -> f64).
(** transform/metrics.rs:315-331. *)
Definition exemplar_msg (e : exemplar T) : pexemplar := mk_pex (attrs_msg (x_attrs e)) (to_nanos (x_time e)) (x_span e) (x_trace e) (num (x_value e)).
(** From<&SdkHistogram<T>> (transform/metrics.rs:202-229). *)
Definition hpoint_msg (start time : Z) (p : hpoint T) : phpoint :=
  mk_php (attrs_msg (h_attrs p)) (to_nanos start) (to_nanos time) (h_count p) (flt (h_sum p)) (h_buckets p) (h_bounds p) (map exemplar_msg (h_ex p))
    (option_map flt (h_min p)) (option_map flt (h_max p)).
(** From<&SdkExponentialHistogram<T>> (transform/metrics.rs:231-268). *)
Definition epoint_msg (start time : Z) (p : epoint T) : pepoint :=
  mk_pep (attrs_msg (e_attrs p)) (to_nanos start) (to_nanos time) (e_count p) (flt (e_sum p)) (e_scale p) (e_zero p) (e_pos p) (e_neg p)
    (map exemplar_msg (e_ex p)) (option_map flt (e_min p)) (option_map flt (e_max p)) (e_threshold p).
(** From<&SdkSum<T>> and From<&SdkGauge<T>> (transform/metrics.rs:270-313). *)
Definition npoint_msg (start time : Z) (p : npoint T) : pnpoint :=
  mk_pnp (attrs_msg (n_attrs p)) start time (map exemplar_msg (n_ex p)) (num (n_value p)).
(** From<&MetricData<T>> (transform/metrics.rs:162-178). *)
Definition data_msg (d : mdata T) : pdata :=
  match d with
  | MGauge ps start time => PGauge (map (npoint_msg (omap to_nanos 0 start) (to_nanos time)) ps)
  | MSum ps start time t mono => PSum (map (npoint_msg (to_nanos start) (to_nanos time)) ps) (temporality_msg t) mono
  | MHist ps start time t => PHist (map (hpoint_msg start time) ps) (temporality_msg t)
  | MExpo ps start time t => PExpo (map (epoint_msg start time) ps) (temporality_msg t)
  end.
End convert.

(** AggregatedMetrics and Metric (data/mod.rs:30-60); From<&SdkMetric>
    (transform/metrics.rs:144-160). *)
Inductive amdata := DF64 (d : mdata f64) | DU64 (d : mdata Z) | DI64 (d : mdata Z).
Record metric := mk_metric { me_name : str; me_desc : str; me_unit : str; me_data : amdata }.
Record pmetric := mk_pmetric { pm_name : str; pm_desc : str; pm_unit : str; pm_data : pdata }.
Definition amdata_msg (d : amdata) : pdata :=
  match d with
  | DF64 d => data_msg num_of_f64 (fun f => f) d
  | DU64 d => data_msg num_of_u64 f64_of_Z d
  | DI64 d => data_msg num_of_i64 f64_of_Z d
  end.
Definition metric_msg (m : metric) : pmetric := mk_pmetric (me_name m) (me_desc m) (me_unit m) (amdata_msg (me_data m)).
(** From<&ResourceMetrics> and From<&SdkScopeMetrics> (transform/metrics.rs:113-142). *)
Definition metrics_msg (r : resource) (sms : list (scope * list metric)) : presource pmetric :=
  mk_presource (attrs_msg (re_attrs r)) (or_empty (re_url r))
    (map (fun sm => mk_scoped (scope_msg (fst sm) None) (or_empty (sc_url (fst sm))) (map metric_msg (snd sm))) sms).
