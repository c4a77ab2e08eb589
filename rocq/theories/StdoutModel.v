(** The exporters of opentelemetry-stdout/src: trace/exporter.rs, logs/exporter.rs,
    metrics/exporter.rs.

    A printed line is its fixed text together with the values formatted into it, whose
    own text ({}, {:?}, chrono's format) is not modelled; a time is printed with six
    digits after the second, so its argument counts microseconds.  Keys of attributes
    and their values are taken together. *)
From Coq Require Import String List NArith ZArith Bool.
From Verif Require Import Str F64 TraceModel SpanModel LogModel ProviderModel AttrModel KvModel OtlpModel.
Import ListNotations.
Local Open Scope string_scope.

Inductive arg :=
| AIndex (i : nat) | ACount (n : N) | AText (s : str) | AId (n : N) | AFlags (n : N) | AKind (k : N) | AMicros (t : Z)
| AStatus (s : status) | AAttr (a : attr) | ALogAttr (a : str * lany) | ABody (b : lany) | AScope (s : scope)
| AInt (z : Z) | AFloat (f : f64) | AFlag (b : bool).
Definition line : Type := string * list arg.
Definition micros (ns : Z) : Z := (ns / 1000)%Z.
Definition opt {A} (f : A -> line) (o : option A) : list line := match o with Some a => [f a] | None => [] end.
(** A heading, if anything follows, then one line for each element. *)
Definition headed {A} (heading : string) (f : nat -> A -> list line) (l : list A) : list line :=
  match l with
  | [] => []
  | _ => (heading, []) :: flat_map (fun '(i, a) => f i a) (combine (seq 0 (List.length l)) l)
  end.
Definition numbered {A} (f : nat -> A -> list line) (l : list A) : list line := flat_map (fun '(i, a) => f i a) (combine (seq 0 (List.length l)) l).

(** ** Spans: print_spans (trace/exporter.rs:75-152) *)
Definition print_scope (sc : scope) : list line :=
  [("		Name         : {}", [AText (sc_name sc)])] ++ opt (fun v => ("		Version  : {}", [AText v])) (sc_version sc) ++
  opt (fun u => ("		SchemaUrl: {}", [AText u])) (sc_url sc) ++
  headed "		Scope Attributes:" (fun _ a => [("			 ->  {}: {}", [AAttr a])]) (sc_attrs sc).
Definition print_attrs (l : list attr) : list line := headed "	Attributes:" (fun _ a => [("		 ->  {}: {:?}", [AAttr a])]) l.
Definition print_event (i : nat) (e : @event attr) : list line :=
  [("	Event #{}", [AIndex i]); ("	Name      : {}", [AText (ev_name e)]); ("	Timestamp : {}", [AMicros (micros (ev_time e))])] ++ print_attrs (ev_attrs e).
Definition print_link (i : nat) (l : @link attr) : list line :=
  [("	Link #{}", [AIndex i]); ("	TraceId: {}", [AId (sc_trace (ln_sc l))]); ("	SpanId : {}", [AId (sc_span (ln_sc l))])] ++ print_attrs (ln_attrs l).
Definition print_span (i : nat) (s : sdata) : list line :=
  let c := d_ctx s in let d := d_data s in
  [("Span #{}", [AIndex i]); ("	Instrumentation Scope", [])] ++ print_scope (d_scope s) ++
  [("", []); ("	Name        : {}", [AText (sd_name d)]); ("	TraceId     : {}", [AId (sc_trace c)]); ("	SpanId      : {}", [AId (sc_span c)]);
   ("	TraceFlags  : {:?}", [AFlags (sc_flags c)]); ("	ParentSpanId: {}", [AId (sd_parent d)]); ("	Kind        : {:?}", [AKind (sd_kind d)]);
   ("	Start time: {}", [AMicros (micros (sd_start d))]); ("	End time: {}", [AMicros (micros (sd_end d))]); ("	Status: {:?}", [AStatus (sd_status d)])] ++
  print_attrs (sd_attrs d) ++ headed "	Events:" print_event (sd_events d) ++ headed "	Links:" print_link (sd_links d).
Definition print_spans (batch : list sdata) : list line := numbered print_span batch.

(** ** Log records: print_logs (logs/exporter.rs:67-116) *)
Definition print_trace (t : tctx) : list line :=
  [("	 TraceId: {:?}", [AId (tc_trace t)]); ("	 SpanId: {:?}", [AId (tc_span t)])] ++ opt (fun f => ("	 TraceFlags: {:?}", [AFlags f])) (tc_flags t).
Definition print_log (i : nat) (x : lrec * scope) : list line :=
  let r := fst x in
  [("Log #{}", [AIndex i]); ("	 Instrumentation Scope: {:?}", [AScope (snd x)])] ++
  opt (fun e => ("	 EventName: {:?}", [AText e])) (lr_event r) ++ opt (fun t => ("	 Target (Scope): {:?}", [AText t])) (lr_target r) ++
  match lr_trace r with Some t => print_trace t | None => [] end ++
  opt (fun t => ("	 Timestamp: {}", [AMicros (micros t)])) (lr_time r) ++ opt (fun t => ("	 Observed Timestamp: {}", [AMicros (micros t)])) (lr_observed r) ++
  opt (fun s => ("	 SeverityText: {:?}", [AText s])) (lr_sevtext r) ++ opt (fun s => ("	 SeverityNumber: {:?}", [ACount s])) (lr_sev r) ++
  opt (fun b => ("	 Body: {:?}", [ABody b])) (lr_body r) ++
  [("	 Attributes:", [])] ++ map (fun a => ("		 ->  {}: {:?}", [ALogAttr a])) (attributes r).
Definition print_logs (batch : list (lrec * scope)) : list line := numbered print_log batch.

(** ** Metrics: print_metrics (metrics/exporter.rs:82-252) *)
Section number.
Context {T : Type} (num : T -> arg).
Definition print_point_attrs (l : list attr) : list line := ("			Attributes   :", []) :: map (fun a => ("				 ->  {}: {}", [AAttr a])) l.
(** print_sum_data_points, print_gauge_data_points (197-217). *)
Definition print_npoint (i : nat) (p : npoint T) : list line :=
  [("		DataPoint #{}", [AIndex i]); ("			Value        : {:#?}", [num (n_value p)])] ++ print_point_attrs (n_attrs p).
(** The buckets (237-251); [None] is f64::NEG_INFINITY. *)
Fixpoint print_buckets (lower : option f64) (bounds : list f64) (counts : list N) : list line :=
  let count := match counts with c :: _ => c | [] => 0%N end in
  let low := match lower with Some f => AFloat f | None => AText (of_string "-inf") end in
  match bounds with
  | [] => [("				{} to +Infinity : {}", [low; ACount count])]
  | b :: bounds => ("				 {} to {} : {}", [low; AFloat b; ACount count]) :: print_buckets (Some b) bounds (tl counts)
  end.
(** print_hist_data_points (219-252). *)
Definition print_hpoint (i : nat) (p : hpoint T) : list line :=
  [("		DataPoint #{}", [AIndex i]); ("			Count        : {}", [ACount (h_count p)]); ("			Sum          : {:?}", [num (h_sum p)])] ++
  opt (fun m => ("			Min          : {:?}", [num m])) (h_min p) ++ opt (fun m => ("			Max          : {:?}", [num m])) (h_max p) ++
  print_point_attrs (h_attrs p) ++ [("			Buckets", [])] ++ print_buckets None (h_bounds p) (h_buckets p).
Definition print_temporality (t : temporality) : list line :=
  match t with
  | Cumulative => [("		Temporality  : Cumulative", [])]
  | _ => [("		Temporality  : Delta", [])]
  end.
Definition print_start (t : Z) : line := ("		StartTime    : {}", [AMicros (micros t)]).
Definition print_end (t : Z) : line := ("		EndTime      : {}", [AMicros (micros t)]).
(** print_info with print_sum, print_gauge, print_histogram (109-132, 142-195). *)
Definition print_info (d : mdata T) : list line :=
  match d with
  | MGauge ps start time => [("		Type         : Gauge", []); ("		Gauge DataPoints", [])] ++ opt print_start start ++ [print_end time] ++ numbered print_npoint ps
  | MSum ps start time t mono =>
      [("		Type         : Sum", []); ("		Sum DataPoints", []); ("		Monotonic    : {}", [AFlag mono])] ++ print_temporality t ++
      [print_start start; print_end time] ++ numbered print_npoint ps
  | MHist ps start time t =>
      [("		Type         : Histogram", [])] ++ print_temporality t ++ [print_start start; print_end time; ("		Histogram DataPoints", [])] ++ numbered print_hpoint ps
  | MExpo _ _ _ _ => [("		Type         : Exponential Histogram", [])]
  end.
End number.
Definition print_metric (i : nat) (m : metric) : list line :=
  [("Metric #{}", [AIndex i]); ("		Name         : {}", [AText (me_name m)]); ("		Description  : {}", [AText (me_desc m)]); ("		Unit         : {}", [AText (me_unit m)])] ++
  match me_data m with
  | DF64 d => print_info AFloat d
  | DU64 d => print_info AInt d
  | DI64 d => print_info AInt d
  end.
Definition print_scope_metrics (i : nat) (g : scope * list metric) : list line :=
  [("	Instrumentation Scope #{}", [AIndex i])] ++ print_scope (fst g) ++ numbered print_metric (snd g).
Definition print_metrics (l : list (scope * list metric)) : list line := numbered print_scope_metrics l.

(** The resource (trace/exporter.rs:46-54, logs/exporter.rs:47-54, metrics/exporter.rs:50-58). *)
Definition print_resource (r : resource) : list line :=
  [("Resource", [])] ++ opt (fun u => ("	Resource SchemaUrl: {:?}", [AText u])) (re_url r) ++ map (fun a => ("	 ->  {}={:?}", [AAttr a])) (re_attrs r).

(** ** Calls *)
(** [export] of the span and log exporters (trace/exporter.rs:35-61, logs/exporter.rs:
    36-62) called by any number of threads: each [println!] is one step, as are the load
    of [is_shutdown] and the exchange on [resource_emitted].  [shutdown] takes the
    exporter exclusively for spans but not for logs, so it may fall between any two
    steps.  [header] is "Spans" or "Logs". *)
Section calls.
Context (header : line) (rlines : list line).
Inductive pc := Entered (body : list line) | Welcomed (body : list line) | Greeted (body : list line) | Printing (rest : list line) | Returned (ok : bool).
Record xstate := mk_x { x_down : bool; x_emitted : bool; x_calls : list pc; x_out : list (nat * line) }.
Definition x_init : xstate := mk_x false false [] [].
Inductive xact := XCall (body : list line) | XStep (i : nat) | XDown.
Definition set_pc (i : nat) (p : pc) (s : xstate) (emitted : bool) (out : list (nat * line)) : xstate :=
  mk_x (x_down s) emitted (set_nth i p (x_calls s)) out.
Definition xstep (s : xstate) (a : xact) : xstate :=
  match a with
  | XCall body => mk_x (x_down s) (x_emitted s) (x_calls s ++ [Entered body]) (x_out s)
  | XDown => mk_x true (x_emitted s) (x_calls s) (x_out s)
  | XStep i =>
      match nth_error (x_calls s) i with
      | Some (Entered body) => set_pc i (if x_down s then Returned false else Welcomed body) s (x_emitted s) (x_out s)
      | Some (Welcomed body) => set_pc i (Greeted body) s (x_emitted s) (x_out s ++ [(i, header)])
      | Some (Greeted body) => set_pc i (Printing (if x_emitted s then body else rlines ++ body)) s true (x_out s)
      | Some (Printing []) => set_pc i (Returned true) s (x_emitted s) (x_out s)
      | Some (Printing (l :: rest)) => set_pc i (Printing rest) s (x_emitted s) (x_out s ++ [(i, l)])
      | Some (Returned _) | None => s
      end
  end.
Definition xrun (acts : list xact) : xstate := fold_left xstep acts x_init.
End calls.

(** [export] of the metric exporter (metrics/exporter.rs:43-61): [None] is
    AlreadyShutdown. *)
Definition export_metrics (down : bool) (r : resource) (l : list (scope * list metric)) : option (list line) :=
  if down then None else Some (("Metrics", []) :: print_resource r ++ print_metrics l)%list.
