(** Configuration of the OTLP exporters and their request life cycle:
    opentelemetry-otlp/src/exporter/mod.rs, exporter/http/*.rs, exporter/tonic/*.rs,
    span.rs, logs.rs, metric.rs. *)
From Coq Require Import String List NArith Bool.
From Verif Require Import Str.
Import ListNotations.
Local Open Scope N_scope.

(** [env::var(name).ok()]: [None] when unset or not Unicode. *)
Definition envm := str -> option str.
Definition V_ENDPOINT : str := of_string "OTEL_EXPORTER_OTLP_ENDPOINT".
Definition V_HEADERS : str := of_string "OTEL_EXPORTER_OTLP_HEADERS".
Definition V_TIMEOUT : str := of_string "OTEL_EXPORTER_OTLP_TIMEOUT".
Definition V_COMPRESSION : str := of_string "OTEL_EXPORTER_OTLP_COMPRESSION".
Inductive signal := Traces | Metrics | Logs.
(** The names and paths of http/mod.rs:199-254, tonic/mod.rs:254-313, span.rs:28-37,
    metric.rs:29-38, logs.rs:20-32. *)
Definition sig_name (s : signal) : str := of_string match s with Traces => "TRACES" | Metrics => "METRICS" | Logs => "LOGS" end.
Definition sig_var (s : signal) (suffix : string) : str := of_string "OTEL_EXPORTER_OTLP_" ++ sig_name s ++ of_string "_" ++ of_string suffix.
Definition sig_path (s : signal) : str := of_string match s with Traces => "/v1/traces" | Metrics => "/v1/metrics" | Logs => "/v1/logs" end.

(** resolve_timeout (exporter/mod.rs:277-296); in nanoseconds. *)
Definition parse_timeout (s : str) : option N := option_map (fun ms => ms * 1000000) (parse_dec (2 ^ 64) s).
Definition bind {A B} (o : option A) (f : A -> option B) : option B := match o with Some a => f a | None => None end.
Definition resolve_timeout (env : envm) (sg : signal) (provided : option N) : N :=
  match provided with
  | Some t => t
  | None =>
    match bind (env (sig_var sg "TIMEOUT")) parse_timeout with
    | Some t => t
    | None => match bind (env V_TIMEOUT) parse_timeout with Some t => t | None => 10000 * 1000000 end
    end
  end.

Section endpoint.
(** [str::parse::<Uri>] of the http crate. *)
Context {uri : Type} (parse_uri : str -> option uri).
Inductive res (A : Type) := Ok (a : A) | InvalidUri (s : str).
Arguments Ok {A}. Arguments InvalidUri {A}.
Definition ends_slash (s : str) : bool := match rev s with c :: _ => c =? 47 | [] => false end.
(** build_endpoint_uri (http/mod.rs:349-359). *)
Definition build_endpoint_uri (endpoint path : str) : res uri :=
  let path' := if ends_slash endpoint then match path with c :: r => if c =? 47 then r else path | [] => path end else path in
  match parse_uri (endpoint ++ path') with Some u => Ok u | None => InvalidUri (endpoint ++ path') end.
Definition ok {A} (r : res A) : option A := match r with Ok a => Some a | InvalidUri _ => None end.
Definition HTTP_DEFAULT : str := of_string "http://localhost:4318".
Definition GRPC_DEFAULT : str := of_string "http://localhost:4317".
(** resolve_http_endpoint (http/mod.rs:362-392). *)
Definition resolve_http_endpoint (env : envm) (sg : signal) (provided : option str) : res uri :=
  match provided with
  | Some e => match parse_uri e with Some u => Ok u | None => InvalidUri e end
  | None =>
    match bind (env (sig_var sg "ENDPOINT")) parse_uri with
    | Some u => Ok u
    | None =>
      match bind (env V_ENDPOINT) (fun s => ok (build_endpoint_uri s (sig_path sg))) with
      | Some u => Ok u
      | None => build_endpoint_uri HTTP_DEFAULT (sig_path sg)
      end
    end
  end.
(** resolve_endpoint (tonic/mod.rs:220-237) and Channel::from_shared (199-200), which
    parses a URI as well. *)
Definition grpc_endpoint (env : envm) (sg : signal) (provided : option str) : str :=
  match provided with
  | Some e => e
  | None => match env (sig_var sg "ENDPOINT") with Some e => e | None => match env V_ENDPOINT with Some e => e | None => GRPC_DEFAULT end end
  end.
Definition resolve_grpc_endpoint (env : envm) (sg : signal) (provided : option str) : res uri :=
  let e := grpc_endpoint env sg provided in match parse_uri e with Some u => Ok u | None => InvalidUri e end.
End endpoint.
Arguments Ok {A}. Arguments InvalidUri {A}.

(** Compression (exporter/mod.rs:142-170), resolve_compression (tonic/mod.rs:239-252) and
    the conversion of tonic/mod.rs:48-69; [gzip], [zstd] are the cargo features. *)
Inductive compression := Gzip | Zstd.
Inductive cres := CNone | COk (c : compression) | CFeature (c : compression) | CUnsupported (s : str).
Section compression.
Context (gzip zstd : bool).
Definition convert_compression (c : compression) : cres := if match c with Gzip => gzip | Zstd => zstd end then COk c else CFeature c.
Definition parse_compression (s : str) : cres :=
  if str_eqb s (of_string "gzip") then convert_compression Gzip else if str_eqb s (of_string "zstd") then convert_compression Zstd else CUnsupported s.
Definition resolve_compression (env : envm) (sg : signal) (provided : option compression) : cres :=
  match provided with
  | Some c => convert_compression c
  | None => match env (sig_var sg "COMPRESSION") with Some s => parse_compression s | None => match env V_COMPRESSION with Some s => parse_compression s | None => CNone end end
  end.
End compression.

(** ** Headers *)
(** url_decode (exporter/mod.rs:307-334): [pend] are the bytes decoded since the last plain
    character, in order; from_str_radix takes a leading plus sign. *)
Fixpoint url_decode_from (pend : list byte) (s : str) : option str :=
  match s with
  | 37 :: a :: b :: r => bind (parse_hex 256 [a; b]) (fun x => url_decode_from (pend ++ [x]) r)
  | 37 :: _ => None
  | c :: r => bind (utf8_decode pend) (fun d => option_map (fun t => d ++ c :: t) (url_decode_from [] r))
  | [] => utf8_decode pend
  end.
Definition url_decode (s : str) : option str := url_decode_from [] s.
Definition decode_or (s dflt : str) : str := match url_decode s with Some t => t | None => dflt end.

(** parse_header_key_value_string (exporter/mod.rs:337-347): when the value does not decode
    it is kept as it was, untrimmed. *)
Definition parse_header (kv : str) : option (str * str) :=
  match split_once 61 kv with
  | None => None
  | Some (k, v) =>
    let k := trim k in let v := decode_or (trim v) v in
    match k, v with [], _ | _, [] => None | _, _ => Some (k, v) end
  end.
Fixpoint filter_some {A B} (f : A -> option B) (l : list A) : list B :=
  match l with [] => [] | a :: l => match f a with Some b => b :: filter_some f l | None => filter_some f l end end.
(** parse_header_string (exporter/mod.rs:299-304). *)
Definition parse_headers (s : str) : list (str * str) := filter_some (fun p => parse_header (trim p)) (split_terminator 44 s).

Section headers.
(** HeaderName::from_str (which lower-cases) and HeaderValue::from_str of the http crate. *)
Context (hname hvalue : str -> option str).
(** A HashMap as an association list with distinct keys. *)
Fixpoint put {V} (k : str) (v : V) (m : list (str * V)) : list (str * V) :=
  match m with [] => [(k, v)] | (k', v') :: m => if str_eqb k k' then (k, v) :: m else (k', v') :: put k v m end.
Fixpoint get {V} (k : str) (m : list (str * V)) : option V := match m with [] => None | (k', v) :: m => if str_eqb k k' then Some v else get k m end.
Definition extend {V} (m l : list (str * V)) : list (str * V) := fold_left (fun m e => put (fst e) (snd e) m) l m.
Definition header_of (e : str * str) : option (str * str) := match hname (fst e), hvalue (snd e) with Some k, Some v => Some (k, v) | _, _ => None end.

(** default_headers (exporter/mod.rs:182-191), given the version's agent string. *)
Definition default_headers (agent : str) : list (str * str) := [(of_string "User-Agent", agent)].
(** with_headers (http/mod.rs:443-453); the argument in its iteration order. *)
Definition with_headers (m given : list (str * str)) : list (str * str) := extend m (map (fun e => (fst e, decode_or (snd e) (snd e))) given).
(** The headers build_client makes (http/mod.rs:168-188): [config] is the configured map in
    its iteration order. *)
Definition http_headers (env : envm) (sg : signal) (config : list (str * str)) : list (str * str) :=
  let base := extend [] (filter_some header_of config) in
  match (match env (sig_var sg "HEADERS") with Some s => Some s | None => env V_HEADERS end) with
  | Some s => extend base (filter_some header_of (parse_headers s))
  | None => base
  end.

(** A HeaderMap as used by gRPC: each name with all its values.  Collecting pairs appends;
    extending with another map replaces the values of its names (http crate). *)
Definition values (k : str) (m : list (str * list str)) : list str := match get k m with Some vs => vs | None => [] end.
Definition append (m : list (str * list str)) (e : str * str) : list (str * list str) := put (fst e) (values (fst e) m ++ [snd e]) m.
Definition collect (l : list (str * str)) : list (str * list str) := fold_left append l [].
(** with_metadata (tonic/mod.rs:412-424). *)
Definition with_metadata (m given : list (str * list str)) : list (str * list str) := extend m given.
(** parse_headers_from_env and merge_metadata_with_headers_from_env (tonic/mod.rs:315-350). *)
Definition grpc_metadata (env : envm) (sg : signal) (config : list (str * list str)) : list (str * list str) :=
  match collect (match (match env (sig_var sg "HEADERS") with Some s => Some s | None => env V_HEADERS end) with
                 | Some s => filter_some header_of (parse_headers s)
                 | None => [] end) with
  | [] => config
  | from_env => extend config from_env
  end.
(** The metadata of a request (tonic/mod.rs:168-181): every value appended to those of a
    fresh request, which has none.  The caller's interceptor then sees it (183-188). *)
Definition request_metadata (m : list (str * list str)) : list (str * list str) :=
  fold_left append (flat_map (fun e => map (fun v => (fst e, v)) (snd e)) m) [].
(** The headers of an HTTP request (http/trace.rs:31-43, logs.rs:20-29, metrics.rs:26-35):
    the content type of the protocol (http/mod.rs:290-345), then the configured headers
    in their iteration order. *)
Inductive protocol := HttpJson | HttpBinary.
Definition content_type (p : protocol) : str := of_string match p with HttpJson => "application/json" | HttpBinary => "application/x-protobuf" end.
Definition http_request (p : protocol) (headers : list (str * str)) : list (str * str) := extend [(of_string "content-type", content_type p)] headers.
End headers.

(** ** The exporters at work *)
Inductive transport := Http | Grpc.
Inductive eres := EOk | EFailure | EAlreadyShutdown.
(** What the server does with a request: for HTTP what HttpClient::send_bytes returns, for
    gRPC a status. *)
Inductive answer := Unreachable | Status (code : N).
Definition is_success (code : N) : bool := (200 <=? code) && (code <? 300).
(** One export of a live or shut-down client: the result and whether a request was sent.
    Http: trace.rs:12-62, logs.rs:8-47, metrics.rs:12-43 (which does not look at the
    status).  Grpc: trace.rs:62-90, logs.rs:59-85, metrics.rs:55-90; a gRPC status other
    than 0 is an error, partial_success is not looked at.  Interceptor and serialisation
    failures and poisoned locks are left out. *)
Definition client_export (tr : transport) (sg : signal) (alive : bool) (a : answer) : eres * bool :=
  if alive then
    (match tr, sg, a with
     | _, _, Unreachable => EFailure
     | Http, Metrics, Status _ => EOk
     | Http, _, Status c => if is_success c then EOk else EFailure
     | Grpc, _, Status c => if c =? 0 then EOk else EFailure
     end, true)
  else (match tr, sg with Grpc, Metrics => EFailure | _, _ => EAlreadyShutdown end, false).
(** The shutdown of each client: Http trace.rs:63-73, logs.rs:49-59, metrics.rs:45-52; Grpc
    trace.rs:92-97, logs.rs:87-96 (does nothing), metrics.rs:92-99. *)
Definition client_shutdown (tr : transport) (sg : signal) (alive : bool) : eres * bool :=
  match tr, sg with
  | Grpc, Logs => (EOk, alive)
  | _, Metrics => (EOk, false)
  | _, _ => (if alive then EOk else EAlreadyShutdown, false)
  end.
(** The exporters handed to the SDK: SpanExporter (span.rs:144-162) has no shutdown, so the
    trait's default applies (opentelemetry-sdk/src/trace/export.rs:46-48); LogExporter
    (logs.rs:141-168) and MetricExporter (metric.rs:151-182) call the client's. *)
Inductive eop := Export (a : answer) | Shutdown.
Definition exporter_step (tr : transport) (sg : signal) (alive : bool) (o : eop) : bool * eres * bool :=
  match o with
  | Export a => let '(r, sent) := client_export tr sg alive a in (alive, r, sent)
  | Shutdown => match sg with Traces => (alive, EOk, false) | _ => let '(r, alive') := client_shutdown tr sg alive in (alive', r, false) end
  end.
Fixpoint exporter_run (tr : transport) (sg : signal) (alive : bool) (ops : list eop) : list (eop * eres * bool) :=
  match ops with
  | [] => []
  | o :: ops => let '(alive', r, sent) := exporter_step tr sg alive o in (o, r, sent) :: exporter_run tr sg alive' ops
  end.
