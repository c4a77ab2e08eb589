(** OTLP messages as bytes: the code that [prost] derives from the attributes of
    the generated messages (opentelemetry-proto/src/proto/tonic/*.rs), called as
    [encode_to_vec] by the HTTP exporters
    (opentelemetry-otlp/src/exporter/http/mod.rs:290-350) and by tonic for gRPC.
    Modelled of prost: fields are written in the order of their tags; a plain
    scalar, string or bytes field is left out if it has its default value; an
    [optional] one is written if it is present; a field of a [oneof] is always
    written; a message is preceded by its length; repeated numbers are packed.
    Left out: the limit of ten bytes for a variable-length number (for numbers
    below 2^64 never exceeded, and nothing in memory is longer). *)
From Coq Require Import List NArith ZArith Bool.
From Verif Require Import Str F64 OtlpModel.
Import ListNotations.
Local Open Scope N_scope.

(** ** The wire format *)
(** [encode_varint]: groups of seven bits, the lowest first, all but the last
    marked by the high bit. *)
Fixpoint varint_aux (fuel : nat) (n : N) : list N :=
  match fuel with
  | O => [n]
  | S fuel => if n <? 128 then [n] else (n mod 128 + 128) :: varint_aux fuel (n / 128)
  end.
Definition varint (n : N) : list N := varint_aux (N.size_nat n) n.
(** [put_u64_le] and the like. *)
Fixpoint le_bytes (k : nat) (n : N) : list N :=
  match k with O => [] | S k => n mod 256 :: le_bytes k (n / 256) end.

(** What follows a field's key, by wire type. *)
Inductive payload := Varint (n : N) | I64 (n : N) | Len (b : list N) | I32 (n : N).
Definition wire_type (p : payload) : N := match p with Varint _ => 0 | I64 _ => 1 | Len _ => 2 | I32 _ => 5 end.
(** [encode_key] and the value. *)
Definition ser_field (f : N * payload) : list N :=
  varint (fst f * 8 + wire_type (snd f)) ++
  match snd f with
  | Varint n => varint n
  | I64 n => le_bytes 8 n
  | Len b => varint (N.of_nat (length b)) ++ b
  | I32 n => le_bytes 4 n
  end.
Definition ser (fs : list (N * payload)) : list N := flat_map ser_field fs.

(** A message as the generated [encode_raw] goes through it: tags, and what is
    written under each. *)
Definition fields (cols : list (N * list payload)) : list (N * payload) :=
  flat_map (fun c => map (pair (fst c)) (snd c)) cols.
Definition message (cols : list (N * list payload)) : list N := ser (fields cols).

(** ** Field types *)
Definition u64_of_z (z : Z) : N := Z.to_N (z mod 2 ^ 64).
Definition bits (f : f64) : N := Z.to_N (f64_bits f).
(** [string], [bytes = "vec"], [uint32], [fixed32], [fixed64], [enumeration] (an
    i32, extended to 64 bits), [bool], [double]: left out if default.  A double
    is left out if it equals 0.0, so also -0.0. *)
Definition w_str (s : str) : list payload := match s with [] => [] | _ => [Len (utf8 s)] end.
Definition w_bytes (b : list N) : list payload := match b with [] => [] | _ => [Len b] end.
Definition w_uint32 (n : N) : list payload := if n =? 0 then [] else [Varint n].
Definition w_fixed32 (n : N) : list payload := if n =? 0 then [] else [I32 n].
Definition w_fixed64 (n : N) : list payload := if n =? 0 then [] else [I64 n].
Definition w_time (z : Z) : list payload := w_fixed64 (Z.to_N z).
Definition w_enum (z : Z) : list payload := if (z =? 0)%Z then [] else [Varint (u64_of_z z)].
Definition w_bool (b : bool) : list payload := if b then [Varint 1] else [].
Definition w_double (f : f64) : list payload := if f64_eqb f (f64_of_Z 0) then [] else [I64 (bits f)].
(** [sint32]: (n << 1) ^ (n >> 31). *)
Definition zigzag (z : Z) : N := Z.to_N (Z.lxor (Z.shiftl z 1) (Z.shiftr z 31) mod 2 ^ 32).
Definition w_sint32 (z : Z) : list payload := if (z =? 0)%Z then [] else [Varint (zigzag z)].
(** [optional] double, message and repeated message fields. *)
Definition w_odouble (o : option f64) : list payload := match o with Some f => [I64 (bits f)] | None => [] end.
Definition w_msg (b : list N) : list payload := [Len b].
Definition w_omsg (o : option (list N)) : list payload := match o with Some b => [Len b] | None => [] end.
Definition w_msgs (l : list (list N)) : list payload := map Len l.
(** Repeated numbers, packed; nothing for none. *)
Definition w_packed {T} (enc : T -> list N) (l : list T) : list payload :=
  match l with [] => [] | _ => [Len (flat_map enc l)] end.

(** ** Common (opentelemetry.proto.common.v1.rs:9-95) *)
(** AnyValue with its [oneof], ArrayValue, KeyValueList, KeyValue. *)
Fixpoint any_bytes (v : any) : list N :=
  message match v with
  | PString s => [(1, [Len (utf8 s)])]
  | PBool b => [(2, [Varint (if b then 1 else 0)])]
  | PInt z => [(3, [Varint (u64_of_z z)])]
  | PDouble f => [(4, [I64 (bits f)])]
  | PArray l => [(5, [Len (message [(1, w_msgs (map any_bytes l))])])]
  | PKvlist l => [(6, [Len (message [(1, w_msgs (map (fun kv =>
      message [(1, w_str (fst kv)); (2, w_msg (any_bytes (snd kv)))]) l))])])]
  | PBytes b => [(7, [Len b])]
  end.
Definition kv_bytes (kv : str * any) : list N := message [(1, w_str (fst kv)); (2, w_msg (any_bytes (snd kv)))].
Definition w_attrs (l : list (str * any)) : list payload := w_msgs (map kv_bytes l).
(** InstrumentationScope (dropped_attributes_count, tag 4, is always 0). *)
Definition scope_bytes (s : pscope) : list N :=
  message [(1, w_str (ps_name s)); (2, w_str (ps_version s)); (3, w_attrs (ps_attrs s))].
(** Resource (opentelemetry.proto.resource.v1.rs:6-18; dropped_attributes_count, tag 2, is always 0). *)
Definition resource_bytes (attrs : list (str * any)) : list N := message [(1, w_attrs attrs)].

(** ** Spans (opentelemetry.proto.trace.v1.rs:79-235, 245-335, 412-418) *)
Definition event_bytes (e : pevent) : list N :=
  message [(1, w_time (pe_time e)); (2, w_str (pe_name e)); (3, w_attrs (pe_attrs e)); (4, w_uint32 (pe_dropped e))].
Definition link_bytes (l : plink) : list N :=
  message [(1, w_bytes (pl_trace l)); (2, w_bytes (pl_span l)); (3, w_str (pl_state l)); (4, w_attrs (pl_attrs l));
           (5, w_uint32 (pl_dropped l)); (6, w_fixed32 (pl_flags l))].
Definition status_bytes (msg : str) (code : Z) : list N := message [(2, w_str msg); (3, w_enum code)].
Definition span_bytes (s : pspan) : list N :=
  message [(1, w_bytes (p_trace s)); (2, w_bytes (p_span s)); (3, w_str (p_state s)); (4, w_bytes (p_parent s));
           (5, w_str (p_name s)); (6, w_enum (p_kind s)); (7, w_time (p_start s)); (8, w_time (p_end s));
           (9, w_attrs (p_attrs s)); (10, w_uint32 (p_attrs_dropped s));
           (11, w_msgs (map event_bytes (p_events s))); (12, w_uint32 (p_events_dropped s));
           (13, w_msgs (map link_bytes (p_links s))); (14, w_uint32 (p_links_dropped s));
           (15, w_msg (status_bytes (p_message s) (p_code s))); (16, w_fixed32 (p_flags s))].
(** ScopeSpans, ResourceSpans (trace.v1.rs:31-70), and their namesakes for logs
    (logs.v1.rs:31-70) and metrics (metrics.v1.rs:49-88), which have the same
    tags; the requests (collector.*.v1.rs:6-16). *)
Definition scoped_bytes {T} (item : T -> list N) (g : pscoped T) : list N :=
  message [(1, w_msg (scope_bytes (g_scope g))); (2, w_msgs (map item (g_items g))); (3, w_str (g_url g))].
Definition resourced_bytes {T} (item : T -> list N) (r : presource T) : list N :=
  message [(1, w_msg (resource_bytes (r_rattrs r))); (2, w_msgs (map (scoped_bytes item) (r_groups r))); (3, w_str (r_rurl r))].
Definition request_bytes {T} (item : T -> list N) (rs : list (presource T)) : list N :=
  message [(1, w_msgs (map (resourced_bytes item) rs))].

(** ** Logs (opentelemetry.proto.logs.v1.rs:78-197; dropped_attributes_count, tag 7, is always 0) *)
Definition log_bytes (l : plog) : list N :=
  message [(1, w_time (q_time l)); (2, w_enum (q_sev l)); (3, w_str (q_sevtext l)); (5, w_omsg (option_map any_bytes (q_body l)));
           (6, w_attrs (q_attrs l)); (8, w_fixed32 (q_flags l)); (9, w_bytes (q_trace l)); (10, w_bytes (q_span l));
           (11, w_time (q_observed l)); (12, w_str (q_event l))].

(** ** Metrics (opentelemetry.proto.metrics.v1.rs; flags, tags 8 and 10, are always 0) *)
(** number_data_point::Value and exemplar::Value: double, sfixed64 (372-379, 750-757). *)
Definition num_cols (double int : N) (v : pnum) : N * list payload :=
  match v with AsDouble f => (double, [I64 (bits f)]) | AsInt z => (int, [I64 (u64_of_z z)]) end.
(** Exemplar (699-741). *)
Definition exemplar_bytes (e : pexemplar) : list N :=
  message [(2, w_time (px_time e)); num_cols 3 6 (px_value e); (4, w_bytes (px_span e)); (5, w_bytes (px_trace e)); (7, w_attrs (px_attrs e))].
(** NumberDataPoint (318-364). *)
Definition npoint_bytes (p : pnpoint) : list N :=
  message [(2, w_time (pn_start p)); (3, w_time (pn_time p)); num_cols 4 6 (pn_value p);
           (5, w_msgs (map exemplar_bytes (pn_ex p))); (7, w_attrs (pn_attrs p))].
(** HistogramDataPoint (396-487). *)
Definition hpoint_bytes (p : phpoint) : list N :=
  message [(2, w_time (ph_start p)); (3, w_time (ph_time p)); (4, w_fixed64 (ph_count p)); (5, w_odouble (Some (ph_sum p)));
           (6, w_packed (le_bytes 8) (ph_buckets p)); (7, w_packed (fun f => le_bytes 8 (bits f)) (ph_bounds p));
           (8, w_msgs (map exemplar_bytes (ph_ex p))); (9, w_attrs (ph_attrs p));
           (11, w_odouble (ph_min p)); (12, w_odouble (ph_max p))].
(** exponential_histogram_data_point::Buckets (597-614). *)
Definition buckets_bytes (b : Z * list N) : list N := message [(1, w_sint32 (fst b)); (2, w_packed varint (snd b))].
(** ExponentialHistogramDataPoint (498-588). *)
Definition epoint_bytes (p : pepoint) : list N :=
  message [(1, w_attrs (pp_attrs p)); (2, w_time (pp_start p)); (3, w_time (pp_time p)); (4, w_fixed64 (pp_count p));
           (5, w_odouble (Some (pp_sum p))); (6, w_sint32 (pp_scale p)); (7, w_fixed64 (pp_zero p));
           (8, w_msg (buckets_bytes (pp_pos p))); (9, w_msg (buckets_bytes (pp_neg p)));
           (11, w_msgs (map exemplar_bytes (pp_ex p))); (12, w_odouble (pp_min p)); (13, w_odouble (pp_max p));
           (14, w_double (pp_threshold p))].
(** metric::Data, Gauge, Sum, Histogram, ExponentialHistogram (212-292). *)
Definition data_cols (d : pdata) : N * list payload :=
  match d with
  | PGauge ps => (5, [Len (message [(1, w_msgs (map npoint_bytes ps))])])
  | PSum ps t mono => (7, [Len (message [(1, w_msgs (map npoint_bytes ps)); (2, w_enum t); (3, w_bool mono)])])
  | PHist ps t => (9, [Len (message [(1, w_msgs (map hpoint_bytes ps)); (2, w_enum t)])])
  | PExpo ps t => (10, [Len (message [(1, w_msgs (map epoint_bytes ps)); (2, w_enum t)])])
  end.
(** Metric (178-203; metadata, tag 12, is always empty). *)
Definition metric_bytes (m : pmetric) : list N :=
  message [(1, w_str (pm_name m)); (2, w_str (pm_desc m)); (3, w_str (pm_unit m)); data_cols (pm_data m)].
