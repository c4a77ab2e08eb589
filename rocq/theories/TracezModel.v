(** The messages of the trace view ("zpages"): opentelemetry-proto/src/transform/tracez.rs
    and the generated src/proto/tonic/opentelemetry.proto.tracez.v1.rs. *)
From Coq Require Import List NArith ZArith Bool.
From Verif Require Import Str F64 TraceModel SpanModel AttrModel KvModel OtlpModel ProtoModel.
Import ListNotations.
Local Open Scope N_scope.

(** LatencyData, RunningData, ErrorData (tracez.v1.rs:21-94). *)
Record platency := mk_platency {
  tl_trace : list N; tl_span : list N; tl_parent : list N; tl_start : Z; tl_end : Z;
  tl_attrs : list (str * any); tl_events : list pevent; tl_links : list plink }.
Record prunning := mk_prunning {
  tr_trace : list N; tr_span : list N; tr_parent : list N; tr_start : Z;
  tr_attrs : list (str * any); tr_events : list pevent; tr_links : list plink }.
Record perror := mk_perror {
  te_trace : list N; te_span : list N; te_parent : list N; te_start : Z;
  te_attrs : list (str * any); te_events : list pevent; te_links : list plink; te_status : option (str * Z) }.

(** From<Event> for SpanEvent (tracez.rs:62-71). *)
Definition tz_event (e : @event attr) : pevent := mk_pevent (to_nanos (ev_time e)) (ev_name e) (attrs_msg (ev_attrs e)) (ev_dropped e).
(** From<SpanData> for LatencyData (tracez.rs:12-25).  Links go through the conversion
    used by exports (transform/trace.rs:36-47). *)
Definition latency_msg (s : sdata) : platency :=
  let c := d_ctx s in let d := d_data s in
  mk_platency (trace_id_to_bytes (sc_trace c)) (span_id_to_bytes (sc_span c)) (span_id_to_bytes (sd_parent d))
    (to_nanos (sd_start d)) (to_nanos (sd_end d)) (attrs_msg (sd_attrs d)) (map tz_event (sd_events d)) (map link_msg (sd_links d)).
(** From<SpanData> for ErrorData (tracez.rs:27-46). *)
Definition error_msg (s : sdata) : perror :=
  let c := d_ctx s in let d := d_data s in
  mk_perror (trace_id_to_bytes (sc_trace c)) (span_id_to_bytes (sc_span c)) (span_id_to_bytes (sd_parent d))
    (to_nanos (sd_start d)) (attrs_msg (sd_attrs d)) (map tz_event (sd_events d)) (map link_msg (sd_links d))
    (match sd_status d with Error m => Some (m, 2%Z) | _ => None end).
(** From<SpanData> for RunningData (tracez.rs:48-60). *)
Definition running_msg (s : sdata) : prunning :=
  let c := d_ctx s in let d := d_data s in
  mk_prunning (trace_id_to_bytes (sc_trace c)) (span_id_to_bytes (sc_span c)) (span_id_to_bytes (sd_parent d))
    (to_nanos (sd_start d)) (attrs_msg (sd_attrs d)) (map tz_event (sd_events d)) (map link_msg (sd_links d)).

(** Their bytes (tracez.v1.rs:21-94), and those of TracezCounts (2-16): a span name, counts
    per latency bucket, running and error counts. *)
Definition latency_bytes (m : platency) : list N :=
  message [(1, w_bytes (tl_trace m)); (2, w_bytes (tl_span m)); (3, w_bytes (tl_parent m)); (4, w_time (tl_start m)); (5, w_time (tl_end m));
           (6, w_attrs (tl_attrs m)); (7, w_msgs (map event_bytes (tl_events m))); (8, w_msgs (map link_bytes (tl_links m)))].
Definition running_bytes (m : prunning) : list N :=
  message [(1, w_bytes (tr_trace m)); (2, w_bytes (tr_span m)); (3, w_bytes (tr_parent m)); (4, w_time (tr_start m));
           (5, w_attrs (tr_attrs m)); (6, w_msgs (map event_bytes (tr_events m))); (7, w_msgs (map link_bytes (tr_links m)))].
Definition error_bytes (m : perror) : list N :=
  message [(1, w_bytes (te_trace m)); (2, w_bytes (te_span m)); (3, w_bytes (te_parent m)); (4, w_time (te_start m));
           (5, w_attrs (te_attrs m)); (6, w_msgs (map event_bytes (te_events m))); (7, w_msgs (map link_bytes (te_links m)));
           (8, w_omsg (option_map (fun st => status_bytes (fst st) (snd st)) (te_status m)))].
Record pcounts := mk_pcounts { tc_name : str; tc_latency : list N; tc_running : N; tc_error : N }.
Definition counts_bytes (m : pcounts) : list N :=
  message [(1, w_str (tc_name m)); (2, w_packed varint (tc_latency m)); (3, w_uint32 (tc_running m)); (4, w_uint32 (tc_error m))].
