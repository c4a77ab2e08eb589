(** The Zipkin exporter: opentelemetry-zipkin/src/exporter.

    The JSON text is a tree as in JsonModel.v.  [show_f64] is f64's Display; the text of
    an IPv6 address is taken as given.  Not modelled: whether the collector endpoint is a
    valid URI, and the HTTP client, whose answer is an input. *)
From Coq Require Import List NArith ZArith Bool String.
From stdpp Require Import base gmap.
From Verif Require Import Str F64 TraceModel SpanModel AttrModel KvModel OtlpModel JsonModel ConfigModel.
Import ListNotations.
Local Open Scope Z_scope.

(** ** Values as text (opentelemetry/src/common.rs:168-198, 379-389) *)
Section show.
Context (show_f64 : f64 -> str).
Definition show_bool (b : bool) : str := of_string (if b then "true" else "false").
(** [display_array_str] (common.rs:188-198): elements separated by commas. *)
Fixpoint show_tail {A} (show : A -> str) (l : list A) : str :=
  match l with
  | [] => []
  | x :: l => 44%N :: show x ++ show_tail show l
  end.
Definition show_list {A} (show : A -> str) (l : list A) : str :=
  91%N :: match l with [] => [] | x :: l => show x ++ show_tail show l end ++ [93%N].
(** Array::String (common.rs:174-183): each string between quotes, nothing escaped. *)
Definition quoted (s : str) : str := 34%N :: s ++ [34%N].
Definition show_array (a : array) : str :=
  match a with
  | ABool l => show_list show_bool l
  | AI64 l => show_list dec_Z l
  | AF64 l => show_list show_f64 l
  | AString l => show_list quoted l
  end.
Definition show_value (v : value) : str :=
  match v with
  | VBool b => show_bool b
  | VI64 z => dec_Z z
  | VF64 f => show_f64 f
  | VString s => s
  | VArray a => show_array a
  end.

(** ** The span (model/span.rs:7-60, model/annotation.rs:5-33, model/endpoint.rs:4-28) *)
Inductive zkind := ZClient | ZServer | ZProducer | ZConsumer.
Inductive sockaddr := V4 (a b c d port : N) | V6 (ip : str) (port : N).
Record zspan := mk_zspan {
  z_trace : str; z_parent : str; z_id : str; z_kind : option zkind; z_name : str; z_time : Z; z_duration : Z;
  z_local : option sockaddr; z_notes : list (Z * str); z_tags : gmap (list N) str }.

(** into_zipkin_span_kind (model/mod.rs:21-29). *)
Definition zkind_of (k : N) : option zkind :=
  match k with 0%N => Some ZClient | 1%N => Some ZServer | 2%N => Some ZProducer | 3%N => Some ZConsumer | _ => None end.
(** [b.duration_since(a)], zero on error, [as_micros() as u64]; times are nanoseconds. *)
Definition micros_since (a b : Z) : Z := if b <? a then 0 else ((b - a) / 1000) mod 2 ^ 64.
(** map_from_kvs (model/mod.rs:108-117). *)
Definition map_from_kvs (kvs : list attr) : gmap (list N) str :=
  fold_left (fun m kv => <[fst kv := show_value (snd kv)]> m) kvs ∅.
Definition named (name : string) (kv : attr) : bool := str_eqb (fst kv) (of_string name).
(** The chained attributes (model/mod.rs:45-59). *)
Definition scope_attrs (sc : scope) : list attr :=
  (of_string "otel.library.name", VString (sc_name sc)) ::
  match sc_version sc with Some v => [(of_string "otel.library.version", VString v)] | None => [] end.
(** into_zipkin_span (model/mod.rs:33-106). *)
Definition zspan_of (local : option sockaddr) (s : sdata) : zspan :=
  let d := d_data s in
  let user_kind := existsb (named "span.kind") (sd_attrs d) in
  let tags := map_from_kvs (List.filter (fun kv => negb (named "error" kv)) (sd_attrs d ++ scope_attrs (d_scope s))) in
  let tags :=
    match sd_status d with
    | Unset => tags
    | StatusOk => <[of_string "otel.status_code" := of_string "OK"]> tags
    | Error m => <[of_string "error" := m]> (<[of_string "otel.status_code" := of_string "ERROR"]> tags)
    end in
  mk_zspan (trace_id_display (sc_trace (d_ctx s))) (span_id_display (sd_parent d)) (span_id_display (sc_span (d_ctx s)))
    (if user_kind then None else zkind_of (sd_kind d)) (sd_name d) (micros_since 0 (sd_start d))
    (micros_since (sd_start d) (sd_end d)) local (map (fun e => (micros_since 0 (ev_time e), ev_name e)) (sd_events d)) tags.

(** ** JSON (the serde attributes of the same files) *)
Definition en_zkind (k : zkind) : json :=
  JStr (of_string match k with ZClient => "CLIENT" | ZServer => "SERVER" | ZProducer => "PRODUCER" | ZConsumer => "CONSUMER" end).
(** Endpoint::new and its Serialize (model/endpoint.rs:6-28). *)
Definition en_endpoint (o : option sockaddr) : json :=
  JObj match o with
  | None => []
  | Some (V4 a b c d p) =>
    [field "ipv4" (JStr (dec_N a ++ 46%N :: dec_N b ++ 46%N :: dec_N c ++ 46%N :: dec_N d)); field "port" (JInt (Z.of_N p))]
  | Some (V6 ip p) => [field "ipv6" (JStr ip); field "port" (JInt (Z.of_N p))]
  end.
Definition en_note (n : Z * str) : json := JObj [field "timestamp" (JInt (fst n)); field "value" (JStr (snd n))].
(** [order]: the iteration order of the tags' hash map. *)
Definition en_zspan (order : list (str * str) -> list (str * str)) (s : zspan) : json :=
  JObj ([field "traceId" (JStr (z_trace s)); field "parentId" (JStr (z_parent s)); field "id" (JStr (z_id s))] ++
    match z_kind s with Some k => [field "kind" (en_zkind k)] | None => [] end ++
    [field "name" (JStr (z_name s)); field "timestamp" (JInt (z_time s)); field "duration" (JInt (z_duration s));
     field "localEndpoint" (en_endpoint (z_local s)); field "annotations" (JArr (map en_note (z_notes s)));
     field "tags" (JObj (map (fun kv => (fst kv, JStr (snd kv))) (order (map_to_list (z_tags s)))));
     field "debug" (JBool false); field "shared" (JBool false)]).

(** ** Export (mod.rs:121-140, uploader.rs:38-63) *)
Inductive http_answer := Failed | Status (code : N).
(** StatusCode::is_success. *)
Definition is_success (code : N) : bool := (200 <=? code)%N && (code <? 300)%N.
Record request := mk_request { q_post : bool; q_type : string; q_body : json }.
Definition zipkin_export (order : list (str * str) -> list (str * str)) (local : option sockaddr) (batch : list sdata)
    (answer : http_answer) : request * bool :=
  (mk_request true "application/json" (JArr (map (fun s => en_zspan order (zspan_of local s)) batch)),
   match answer with Failed => false | Status c => is_success c end).
(** ZipkinExporter overrides neither [set_resource] nor [shutdown] of SpanExporter
    (mod.rs:134-140); their defaults (opentelemetry-sdk/src/trace/export.rs) do nothing.
    The exporter's own state is its local endpoint. *)
Definition zipkin_set_resource (r : resource) (local : option sockaddr) : option sockaddr := local.
Definition zipkin_shutdown (local : option sockaddr) : option sockaddr := local.
End show.

(** ** Configuration (env.rs:19-37, mod.rs:42-72, 115-118) *)
Definition nonempty (o : option str) : option str := match o with Some [] => None | _ => o end.
(** get_timeout, in milliseconds. *)
Definition zipkin_timeout (env : environment) : N :=
  match nonempty (env (of_string "OTEL_EXPORTER_ZIPKIN_TIMEOUT")) with
  | Some t => match parse_dec (2 ^ 64) t with Some n => n | None => 10000 end
  | None => 10000
  end.
(** get_endpoint, then [with_collector_endpoint] if called. *)
Definition zipkin_endpoint (env : environment) (program : option str) : str :=
  match program with
  | Some e => e
  | None =>
    match nonempty (env (of_string "OTEL_EXPORTER_ZIPKIN_ENDPOINT")) with
    | Some e => e
    | None => of_string "http://127.0.0.1:9411/api/v2/spans"
    end
  end.
