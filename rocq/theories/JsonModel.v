(** OTLP messages as JSON: opentelemetry-proto/src/proto.rs:5-191 (the hand-written
    serializers) and the serde attributes of the generated messages
    (opentelemetry-proto/src/proto/tonic/*.rs, produced by tests/grpc_build.rs:26-125).

    A JSON document is a tree; its text (serde_json's printer and parser, its limit of
    128 nested levels, the last digit of floats) is left out.  Modelled of serde: a
    derived struct reads its fields by name in any order, skips unknown ones, fails on a
    repeated one, and takes the default for a missing one if the struct has
    [serde(default)] or the field is an [Option]; a flattened [Option] of an enum
    swallows every error; serde_json writes a float that is not finite as null.  Arrays
    in place of structs, which serde also takes, are left out, and so are the Summary
    metric (never made by the SDK), metadata of metrics and the data point flags. *)
From Coq Require Import String List NArith ZArith Bool Ascii.
From Verif Require Import Str F64 OtlpModel.
Import ListNotations.
Local Open Scope Z_scope.

Inductive json :=
| JNull | JBool (b : bool) | JInt (z : Z) | JFloat (f : f64) | JStr (s : str)
| JArr (l : list json) | JObj (l : list (str * json)).

(** ** Encodings of scalars *)
(** [hex::encode], [hex::decode] (proto.rs:15-46). *)
Definition hex_encode (b : list N) : str := flat_map (fun x => [hex_char (x / 16)%N; hex_char (x mod 16)%N]) b.
Fixpoint hex_decode (s : str) : option (list N) :=
  match s with
  | [] => Some []
  | a :: b :: s =>
    match hex_val a, hex_val b, hex_decode s with
    | Some x, Some y, Some l => Some ((x * 16 + y)%N :: l)
    | _, _, _ => None
    end
  | _ => None
  end.

(** [base64::encode], [base64::decode]: the standard alphabet with padding. *)
Definition b64_char (n : N) : N :=
  (if n <? 26 then 65 + n else if n <? 52 then 71 + n else if n <? 62 then n - 4 else if n =? 62 then 43 else 47)%N.
Definition b64_val (c : N) : option N :=
  (if is_upper c then Some (c - 65) else if is_lower c then Some (c - 71) else if is_digit c then Some (c + 4)
   else if c =? 43 then Some 62 else if c =? 47 then Some 63 else None)%N.
Definition PAD : N := 61%N.
Fixpoint base64_encode (b : list N) : str :=
  match b with
  | [] => []
  | [x] => [b64_char (x / 4)%N; b64_char (x mod 4 * 16)%N; PAD; PAD]
  | [x; y] => [b64_char (x / 4)%N; b64_char (x mod 4 * 16 + y / 16)%N; b64_char (y mod 16 * 4)%N; PAD]
  | x :: y :: z :: b =>
    b64_char (x / 4)%N :: b64_char (x mod 4 * 16 + y / 16)%N :: b64_char (y mod 16 * 4 + z / 64)%N :: b64_char (z mod 64)%N :: base64_encode b
  end.
(** The last group may end in one or two padding signs; the bits they leave over must be
    zero. *)
Definition base64_last (a b c d : N) : option (list N) :=
  match b64_val a, b64_val b with
  | Some x, Some y =>
    if (c =? PAD)%N && (d =? PAD)%N then if (y mod 16 =? 0)%N then Some [x * 4 + y / 16]%N else None
    else match b64_val c with
    | Some z =>
      if (d =? PAD)%N then if (z mod 4 =? 0)%N then Some [x * 4 + y / 16; y mod 16 * 16 + z / 4]%N else None
      else match b64_val d with
           | Some w => Some [x * 4 + y / 16; y mod 16 * 16 + z / 4; z mod 4 * 64 + w]%N
           | None => None
           end
    | None => None
    end
  | _, _ => None
  end.
Fixpoint base64_decode (s : str) : option (list N) :=
  match s with
  | [] => Some []
  | [a; b; c; d] => base64_last a b c d
  | a :: b :: c :: d :: s =>
    match b64_val a, b64_val b, b64_val c, b64_val d, base64_decode s with
    | Some x, Some y, Some z, Some w, Some l =>
      Some ((x * 4 + y / 16)%N :: (y mod 16 * 16 + z / 4)%N :: (z mod 4 * 64 + w)%N :: l)
    | _, _, _, _, _ => None
    end
  | _ => None
  end.

(** [u64::to_string], [i64::to_string]; [fuel] bounds the number of digits. *)
Fixpoint dec_of (fuel : nat) (n : N) : str :=
  match fuel with
  | O => []
  | S f => if (n <? 10)%N then [(48 + n)%N] else dec_of f (n / 10)%N ++ [(48 + n mod 10)%N]
  end.
Definition dec_N (n : N) : str := dec_of 20 n.
Definition dec_Z (z : Z) : str := if z <? 0 then 45%N :: dec_N (Z.to_N (- z)) else dec_N (Z.to_N z).
(** [str::parse::<u64>], [str::parse::<i64>]. *)
Definition parse_u64 (s : str) : option Z := option_map Z.of_N (parse_dec (2 ^ 64) s).
Definition parse_i64 (s : str) : option Z :=
  match s with
  | c :: r =>
    if (c =? 45)%N then
      match r with
      | [] => None
      | _ => option_map (fun n => - Z.of_N n) (dec_digits (2 ^ 63 + 1) 0 r)
      end
    else option_map Z.of_N (parse_dec (2 ^ 63) s)
  | [] => None
  end.

(** ** Readers of fields *)
Definition de_str (j : json) : option str := match j with JStr s => Some s | _ => None end.
Definition de_bool (j : json) : option bool := match j with JBool b => Some b | _ => None end.
Definition de_int (lo hi : Z) (j : json) : option Z :=
  match j with JInt z => if (lo <=? z) && (z <? hi) then Some z else None | _ => None end.
Definition de_u32 := de_int 0 (2 ^ 32).
Definition de_i32 := de_int (- 2 ^ 31) (2 ^ 31).
Definition de_u64 := de_int 0 (2 ^ 64).
Definition de_i64 := de_int (- 2 ^ 63) (2 ^ 63).
Definition en_f64 (f : f64) : json := if f64_is_finite f then JFloat f else JNull.
Definition de_f64 (j : json) : option f64 := match j with JFloat f => Some f | JInt z => Some (f64_of_Z z) | _ => None end.
(** serialize_to_hex_string ... deserialize_string_to_u64 (proto.rs:15-46, 156-170). *)
Definition en_hex (b : list N) : json := JStr (hex_encode b).
Definition de_hex (j : json) : option (list N) := match j with JStr s => hex_decode s | _ => None end.
Definition en_u64s (z : Z) : json := JStr (dec_Z z).
Definition de_u64s (j : json) : option Z := match j with JStr s => parse_u64 s | _ => None end.

Definition en_option {A} (en : A -> json) (o : option A) : json := match o with Some a => en a | None => JNull end.
Definition de_option {A} (de : json -> option A) (j : json) : option (option A) :=
  match j with JNull => Some None | _ => option_map Some (de j) end.
Definition en_list {A} (en : A -> json) (l : list A) : json := JArr (map en l).
Definition de_list {A} (de : json -> option A) (j : json) : option (list A) :=
  match j with JArr l => all_some (map de l) | _ => None end.

(** A field of a struct: [None] when it is repeated. *)
Definition get (name : string) (l : list (str * json)) : option (option json) :=
  match filter (fun kv => str_eqb (fst kv) (of_string name)) l with
  | [] => Some None
  | [kv] => Some (Some (snd kv))
  | _ => None
  end.
(** A field without default, and one with the default [d] (None for an Option). *)
Definition req {A} (name : string) (de : json -> option A) (l : list (str * json)) : option A :=
  match get name l with Some (Some j) => de j | _ => None end.
Definition dft {A} (name : string) (de : json -> option A) (d : A) (l : list (str * json)) : option A :=
  match get name l with Some (Some j) => de j | Some None => Some d | None => None end.
Definition obj {A} (f : list (str * json) -> option A) (j : json) : option A := match j with JObj l => f l | _ => None end.
Definition field (name : string) (j : json) : str * json := (of_string name, j).
Local Notation "x <- e ;; f" := (match e with Some x => f | None => None end) (at level 61, e at next level, right associativity).

(** ** AnyValue and KeyValue (common.v1.rs:8-86) *)
(** any_value::Value; an AnyValue is an [option jv], a KeyValue a key with an optional
    AnyValue. *)
Inductive jv :=
| SV (s : str) | BV (b : bool) | IV (z : Z) | DV (f : f64)
| AV (l : list (option jv)) | KV (l : list (str * option (option jv))) | XV (b : list N).

(** serialize_to_value under [flatten] (proto.rs:48-71). *)
Fixpoint en_value (v : jv) : json :=
  let en_any (o : option jv) : json := match o with Some v => en_value v | None => JObj [] end in
  match v with
  | IV z => JObj [field "intValue" (JStr (dec_Z z))]
  | XV b => JObj [field "bytesValue" (JStr (base64_encode b))]
  | SV s => JObj [field "stringValue" (JStr s)]
  | BV b => JObj [field "boolValue" (JBool b)]
  | DV f => JObj [field "doubleValue" (en_f64 f)]
  | AV l => JObj [field "arrayValue" (JObj [field "values" (JArr (map en_any l))])]
  | KV l => JObj [field "kvlistValue" (JObj [field "values" (JArr (map (fun kv =>
              JObj [field "key" (JStr (fst kv)); field "value" (en_option en_any (snd kv))]) l))])]
  end.
Definition en_any (o : option jv) : json := match o with Some v => en_value v | None => JObj [] end.
Definition en_kv (kv : str * option (option jv)) : json :=
  JObj [field "key" (JStr (fst kv)); field "value" (en_option en_any (snd kv))].

(** StringOrInt::get_int (proto.rs:79-98). *)
Definition de_string_or_int (j : json) : option Z :=
  match j with JStr s => parse_i64 s | _ => de_i64 j end.

Section visit.
Context (de_any : json -> option (option jv)).
Definition de_kv_with : json -> option (str * option (option jv)) :=
  obj (fun l => k <- req "key" de_str l ;; v <- dft "value" (de_option de_any) None l ;; Some (k, v)).
(** One known key (proto.rs:113-147); [Some None]: an unknown key. *)
Definition de_known (k : str) (j : json) : option (option jv) :=
  let is (s : string) := str_eqb k (of_string s) in
  if is "stringValue"%string then option_map (fun s => Some (SV s)) (de_str j)
  else if is "boolValue"%string then option_map (fun b => Some (BV b)) (de_bool j)
  else if is "intValue"%string then option_map (fun z => Some (IV z)) (de_string_or_int j)
  else if is "doubleValue"%string then option_map (fun f => Some (DV f)) (de_f64 j)
  else if is "arrayValue"%string then option_map (fun l => Some (AV l)) (obj (req "values" (de_list de_any)) j)
  else if is "kvlistValue"%string then option_map (fun l => Some (KV l)) (obj (req "values" (de_list de_kv_with)) j)
  else if is "bytesValue"%string then s <- de_str j ;; option_map (fun b => Some (XV b)) (base64_decode s)
  else Some None.
(** visit_map (proto.rs:107-158): the last known key counts, none is an error. *)
Fixpoint visit (l : list (str * json)) (acc : option jv) : option (option jv) :=
  match l with
  | [] => match acc with Some v => Some (Some v) | None => None end
  | (k, j) :: l =>
    match de_known k j with
    | None => None
    | Some (Some v) => visit l (Some v)
    | Some None => visit l acc
    end
  end.
End visit.
(** deserialize_from_value (proto.rs:73-163); [n] bounds the nesting of values. *)
Fixpoint de_value (n : nat) (j : json) : option (option jv) :=
  match n with
  | O => None
  | S n => match j with JObj l => visit (de_value n) l None | _ => None end
  end.
Fixpoint depth (j : json) : nat :=
  match j with
  | JArr l => S (fold_right (fun j n => Nat.max (depth j) n) O l)
  | JObj l => S (fold_right (fun kv n => Nat.max (depth (snd kv)) n) O l)
  | _ => O
  end.
Definition de_any (j : json) : option (option jv) := de_value (depth j) j.
Definition de_kv : json -> option (str * option (option jv)) := de_kv_with de_any.

Definition kv := (str * option (option jv))%type.
Definition en_kvs : list kv -> json := en_list en_kv.
Definition de_kvs : json -> option (list kv) := de_list de_kv.

(** ** Resource and scope (resource.v1.rs:6-17, common.v1.rs:92-107) *)
Record jresource := mk_jres { jr_attrs : list kv; jr_dropped : Z }.
Definition en_resource (r : jresource) : json :=
  JObj [field "attributes" (en_kvs (jr_attrs r)); field "droppedAttributesCount" (JInt (jr_dropped r))].
Definition de_resource : json -> option jresource :=
  obj (fun l => a <- dft "attributes" de_kvs [] l ;; d <- dft "droppedAttributesCount" de_u32 0 l ;; Some (mk_jres a d)).
Record jscope := mk_jscope { js_name : str; js_version : str; js_attrs : list kv; js_dropped : Z }.
Definition en_scope (s : jscope) : json :=
  JObj [field "name" (JStr (js_name s)); field "version" (JStr (js_version s)); field "attributes" (en_kvs (js_attrs s));
        field "droppedAttributesCount" (JInt (js_dropped s))].
Definition de_scope : json -> option jscope :=
  obj (fun l => n <- dft "name" de_str [] l ;; v <- dft "version" de_str [] l ;; a <- dft "attributes" de_kvs [] l ;;
                d <- dft "droppedAttributesCount" de_u32 0 l ;; Some (mk_jscope n v a d)).

(** ScopeSpans/ScopeLogs/ScopeMetrics, ResourceSpans/..., Export...ServiceRequest: the
    same shape with different names of the item fields. *)
Record jscoped (T : Type) := mk_jscoped { jg_scope : option jscope; jg_items : list T; jg_url : str }.
Arguments mk_jscoped {T}. Arguments jg_scope {T}. Arguments jg_items {T}. Arguments jg_url {T}.
Record jgroup (T : Type) := mk_jgroup { jp_resource : option jresource; jp_scopes : list (jscoped T); jp_url : str }.
Arguments mk_jgroup {T}. Arguments jp_resource {T}. Arguments jp_scopes {T}. Arguments jp_url {T}.
Section groups.
Context {T : Type} (en : T -> json) (de : json -> option T) (top scopes items : string).
Definition en_scoped (g : jscoped T) : json :=
  JObj [field "scope" (en_option en_scope (jg_scope g)); field items (en_list en (jg_items g)); field "schemaUrl" (JStr (jg_url g))].
Definition de_scoped : json -> option (jscoped T) :=
  obj (fun l => s <- dft "scope" (de_option de_scope) None l ;; i <- dft items (de_list de) [] l ;; u <- dft "schemaUrl" de_str [] l ;;
                Some (mk_jscoped s i u)).
Definition en_group (g : jgroup T) : json :=
  JObj [field "resource" (en_option en_resource (jp_resource g)); field scopes (en_list en_scoped (jp_scopes g)); field "schemaUrl" (JStr (jp_url g))].
Definition de_group : json -> option (jgroup T) :=
  obj (fun l => r <- dft "resource" (de_option de_resource) None l ;; s <- dft scopes (de_list de_scoped) [] l ;; u <- dft "schemaUrl" de_str [] l ;;
                Some (mk_jgroup r s u)).
(** The request has no [serde(default)] (collector/*/v1.rs:8-16). *)
Definition en_request (r : list (jgroup T)) : json := JObj [field top (en_list en_group r)].
Definition de_request : json -> option (list (jgroup T)) := obj (req top (de_list de_group)).
End groups.

(** ** Spans (trace.v1.rs:74-340) *)
Record jevent := mk_jevent { je_time : Z; je_name : str; je_attrs : list kv; je_dropped : Z }.
Definition en_event (e : jevent) : json :=
  JObj [field "timeUnixNano" (en_u64s (je_time e)); field "name" (JStr (je_name e)); field "attributes" (en_kvs (je_attrs e));
        field "droppedAttributesCount" (JInt (je_dropped e))].
Definition de_event : json -> option jevent :=
  obj (fun l => t <- dft "timeUnixNano" de_u64s 0 l ;; n <- dft "name" de_str [] l ;; a <- dft "attributes" de_kvs [] l ;;
                d <- dft "droppedAttributesCount" de_u32 0 l ;; Some (mk_jevent t n a d)).
Record jlink := mk_jlink { jl_trace : list N; jl_span : list N; jl_state : str; jl_attrs : list kv; jl_dropped : Z; jl_flags : Z }.
Definition en_link (k : jlink) : json :=
  JObj [field "traceId" (en_hex (jl_trace k)); field "spanId" (en_hex (jl_span k)); field "traceState" (JStr (jl_state k));
        field "attributes" (en_kvs (jl_attrs k)); field "droppedAttributesCount" (JInt (jl_dropped k)); field "flags" (JInt (jl_flags k))].
Definition de_link : json -> option jlink :=
  obj (fun l => t <- dft "traceId" de_hex [] l ;; s <- dft "spanId" de_hex [] l ;; st <- dft "traceState" de_str [] l ;;
                a <- dft "attributes" de_kvs [] l ;; d <- dft "droppedAttributesCount" de_u32 0 l ;; f <- dft "flags" de_u32 0 l ;;
                Some (mk_jlink t s st a d f)).
Record jstatus := mk_jstatus { jt_message : str; jt_code : Z }.
Definition en_status (s : jstatus) : json := JObj [field "message" (JStr (jt_message s)); field "code" (JInt (jt_code s))].
Definition de_status : json -> option jstatus :=
  obj (fun l => m <- dft "message" de_str [] l ;; c <- dft "code" de_i32 0 l ;; Some (mk_jstatus m c)).
Record jspan := mk_jspan {
  ja_trace : list N; ja_span : list N; ja_state : str; ja_parent : list N; ja_flags : Z; ja_name : str; ja_kind : Z;
  ja_start : Z; ja_end : Z; ja_attrs : list kv; ja_attrs_dropped : Z; ja_events : list jevent; ja_events_dropped : Z;
  ja_links : list jlink; ja_links_dropped : Z; ja_status : option jstatus }.
Definition en_span (s : jspan) : json :=
  JObj [field "traceId" (en_hex (ja_trace s)); field "spanId" (en_hex (ja_span s)); field "traceState" (JStr (ja_state s));
        field "parentSpanId" (en_hex (ja_parent s)); field "flags" (JInt (ja_flags s)); field "name" (JStr (ja_name s));
        field "kind" (JInt (ja_kind s)); field "startTimeUnixNano" (en_u64s (ja_start s)); field "endTimeUnixNano" (en_u64s (ja_end s));
        field "attributes" (en_kvs (ja_attrs s)); field "droppedAttributesCount" (JInt (ja_attrs_dropped s));
        field "events" (en_list en_event (ja_events s)); field "droppedEventsCount" (JInt (ja_events_dropped s));
        field "links" (en_list en_link (ja_links s)); field "droppedLinksCount" (JInt (ja_links_dropped s));
        field "status" (en_option en_status (ja_status s))].
Definition de_span : json -> option jspan :=
  obj (fun l => a <- dft "traceId" de_hex [] l ;; b <- dft "spanId" de_hex [] l ;; c <- dft "traceState" de_str [] l ;;
                d <- dft "parentSpanId" de_hex [] l ;; e <- dft "flags" de_u32 0 l ;; f <- dft "name" de_str [] l ;;
                g <- dft "kind" de_i32 0 l ;; h <- dft "startTimeUnixNano" de_u64s 0 l ;; i <- dft "endTimeUnixNano" de_u64s 0 l ;;
                j <- dft "attributes" de_kvs [] l ;; k <- dft "droppedAttributesCount" de_u32 0 l ;;
                m <- dft "events" (de_list de_event) [] l ;; n <- dft "droppedEventsCount" de_u32 0 l ;;
                o <- dft "links" (de_list de_link) [] l ;; p <- dft "droppedLinksCount" de_u32 0 l ;;
                q <- dft "status" (de_option de_status) None l ;;
                Some (mk_jspan a b c d e f g h i j k m n o p q)).
Definition en_spans := en_request en_span "resourceSpans" "scopeSpans" "spans".
Definition de_spans := de_request de_span "resourceSpans" "scopeSpans" "spans".

(** ** Log records (logs.v1.rs:74-195) *)
Record jlog := mk_jlog {
  jb_time : Z; jb_observed : Z; jb_sev : Z; jb_sevtext : str; jb_body : option (option jv); jb_attrs : list kv; jb_dropped : Z;
  jb_flags : Z; jb_trace : list N; jb_span : list N; jb_event : str }.
Definition en_log (r : jlog) : json :=
  JObj [field "timeUnixNano" (en_u64s (jb_time r)); field "observedTimeUnixNano" (en_u64s (jb_observed r));
        field "severityNumber" (JInt (jb_sev r)); field "severityText" (JStr (jb_sevtext r)); field "body" (en_option en_any (jb_body r));
        field "attributes" (en_kvs (jb_attrs r)); field "droppedAttributesCount" (JInt (jb_dropped r)); field "flags" (JInt (jb_flags r));
        field "traceId" (en_hex (jb_trace r)); field "spanId" (en_hex (jb_span r)); field "eventName" (JStr (jb_event r))].
Definition de_log : json -> option jlog :=
  obj (fun l => a <- dft "timeUnixNano" de_u64s 0 l ;; b <- dft "observedTimeUnixNano" de_u64s 0 l ;; c <- dft "severityNumber" de_i32 0 l ;;
                d <- dft "severityText" de_str [] l ;; e <- dft "body" (de_option de_any) None l ;; f <- dft "attributes" de_kvs [] l ;;
                g <- dft "droppedAttributesCount" de_u32 0 l ;; h <- dft "flags" de_u32 0 l ;; i <- dft "traceId" de_hex [] l ;;
                j <- dft "spanId" de_hex [] l ;; k <- dft "eventName" de_str [] l ;; Some (mk_jlog a b c d e f g h i j k)).
Definition en_logs := en_request en_log "resourceLogs" "scopeLogs" "logRecords".
Definition de_logs := de_request de_log "resourceLogs" "scopeLogs" "logRecords".

(** ** Metrics (metrics.v1.rs:40-800) *)
(** number_data_point::Value and exemplar::Value as externally tagged enums. *)
Definition en_num (n : pnum) : str * json :=
  match n with AsDouble f => field "asDouble" (en_f64 f) | AsInt z => field "asInt" (JInt z) end.
(** An enum from one entry of an object; [None]: not a variant. *)
Definition num_variant (k : str) : option (json -> option pnum) :=
  if str_eqb k (of_string "asDouble") then Some (fun j => option_map AsDouble (de_f64 j))
  else if str_eqb k (of_string "asInt") then Some (fun j => option_map AsInt (de_i64 j))
  else None.
(** A flattened [Option] of an enum: the first entry whose name is a variant; an error
    counts as None. *)
Fixpoint de_flat {A} (variant : str -> option (json -> option A)) (l : list (str * json)) : option A :=
  match l with
  | [] => None
  | (k, j) :: l => match variant k with Some de => de j | None => de_flat variant l end
  end.
(** The enum as a value of its own: an object with one entry. *)
Definition de_tagged {A} (variant : str -> option (json -> option A)) (j : json) : option A :=
  match j with
  | JObj [(k, j)] => match variant k with Some de => de j | None => None end
  | _ => None
  end.

(** Exemplar (no default, value not flattened: 735-790). *)
Record jexemplar := mk_jex { jx_attrs : list kv; jx_time : Z; jx_span : list N; jx_trace : list N; jx_value : option pnum }.
Definition en_exemplar (e : jexemplar) : json :=
  JObj [field "filteredAttributes" (en_kvs (jx_attrs e)); field "timeUnixNano" (JInt (jx_time e)); field "spanId" (en_hex (jx_span e));
        field "traceId" (en_hex (jx_trace e)); field "value" (en_option (fun n => JObj [en_num n]) (jx_value e))].
Definition de_exemplar : json -> option jexemplar :=
  obj (fun l => a <- req "filteredAttributes" de_kvs l ;; t <- req "timeUnixNano" de_u64 l ;; s <- req "spanId" de_hex l ;;
                r <- req "traceId" de_hex l ;; v <- dft "value" (de_option (de_tagged num_variant)) None l ;; Some (mk_jex a t s r v)).
(** NumberDataPoint (value flattened: 318-380). *)
Record jnpoint := mk_jnp { jn_attrs : list kv; jn_start : Z; jn_time : Z; jn_ex : list jexemplar; jn_value : option pnum }.
Definition en_npoint (p : jnpoint) : json :=
  JObj ([field "attributes" (en_kvs (jn_attrs p)); field "startTimeUnixNano" (en_u64s (jn_start p)); field "timeUnixNano" (en_u64s (jn_time p));
         field "exemplars" (en_list en_exemplar (jn_ex p)); field "flags" (JInt 0)] ++
        match jn_value p with Some n => [en_num n] | None => [] end).
Definition de_npoint : json -> option jnpoint :=
  obj (fun l => a <- dft "attributes" de_kvs [] l ;; s <- dft "startTimeUnixNano" de_u64s 0 l ;; t <- dft "timeUnixNano" de_u64s 0 l ;;
                e <- dft "exemplars" (de_list de_exemplar) [] l ;; Some (mk_jnp a s t e (de_flat num_variant l))).
(** HistogramDataPoint (394-480). *)
Record jhpoint := mk_jhp { jh_attrs : list kv; jh_start : Z; jh_time : Z; jh_count : Z; jh_sum : option f64; jh_buckets : list Z;
  jh_bounds : list f64; jh_ex : list jexemplar; jh_min : option f64; jh_max : option f64 }.
Definition en_hpoint (p : jhpoint) : json :=
  JObj [field "attributes" (en_kvs (jh_attrs p)); field "startTimeUnixNano" (en_u64s (jh_start p)); field "timeUnixNano" (en_u64s (jh_time p));
        field "count" (JInt (jh_count p)); field "sum" (en_option en_f64 (jh_sum p)); field "bucketCounts" (en_list JInt (jh_buckets p));
        field "explicitBounds" (en_list en_f64 (jh_bounds p)); field "exemplars" (en_list en_exemplar (jh_ex p)); field "flags" (JInt 0);
        field "min" (en_option en_f64 (jh_min p)); field "max" (en_option en_f64 (jh_max p))].
Definition de_hpoint : json -> option jhpoint :=
  obj (fun l => a <- dft "attributes" de_kvs [] l ;; s <- dft "startTimeUnixNano" de_u64s 0 l ;; t <- dft "timeUnixNano" de_u64s 0 l ;;
                c <- dft "count" de_u64 0 l ;; u <- dft "sum" (de_option de_f64) None l ;; b <- dft "bucketCounts" (de_list de_u64) [] l ;;
                o <- dft "explicitBounds" (de_list de_f64) [] l ;; e <- dft "exemplars" (de_list de_exemplar) [] l ;;
                i <- dft "min" (de_option de_f64) None l ;; m <- dft "max" (de_option de_f64) None l ;;
                Some (mk_jhp a s t c u b o e i m)).
(** ExponentialHistogramDataPoint and its Buckets (no default: 484-620). *)
Definition en_buckets (b : Z * list Z) : json := JObj [field "offset" (JInt (fst b)); field "bucketCounts" (en_list JInt (snd b))].
Definition de_buckets : json -> option (Z * list Z) :=
  obj (fun l => o <- req "offset" de_i32 l ;; c <- req "bucketCounts" (de_list de_u64) l ;; Some (o, c)).
Record jepoint := mk_jep { jp_attrs : list kv; jp_start : Z; jp_time : Z; jp_count : Z; jp_sum : option f64; jp_scale : Z; jp_zero : Z;
  jp_pos : option (Z * list Z); jp_neg : option (Z * list Z); jp_ex : list jexemplar; jp_min : option f64; jp_max : option f64; jp_threshold : f64 }.
Definition en_epoint (p : jepoint) : json :=
  JObj [field "attributes" (en_kvs (jp_attrs p)); field "startTimeUnixNano" (JInt (jp_start p)); field "timeUnixNano" (JInt (jp_time p));
        field "count" (JInt (jp_count p)); field "sum" (en_option en_f64 (jp_sum p)); field "scale" (JInt (jp_scale p)); field "zeroCount" (JInt (jp_zero p));
        field "positive" (en_option en_buckets (jp_pos p)); field "negative" (en_option en_buckets (jp_neg p)); field "flags" (JInt 0);
        field "exemplars" (en_list en_exemplar (jp_ex p)); field "min" (en_option en_f64 (jp_min p)); field "max" (en_option en_f64 (jp_max p));
        field "zeroThreshold" (en_f64 (jp_threshold p))].
Definition de_epoint : json -> option jepoint :=
  obj (fun l => a <- req "attributes" de_kvs l ;; s <- req "startTimeUnixNano" de_u64 l ;; t <- req "timeUnixNano" de_u64 l ;;
                c <- req "count" de_u64 l ;; u <- dft "sum" (de_option de_f64) None l ;; k <- req "scale" de_i32 l ;; z <- req "zeroCount" de_u64 l ;;
                p <- dft "positive" (de_option de_buckets) None l ;; n <- dft "negative" (de_option de_buckets) None l ;;
                e <- req "exemplars" (de_list de_exemplar) l ;; i <- dft "min" (de_option de_f64) None l ;; m <- dft "max" (de_option de_f64) None l ;;
                h <- req "zeroThreshold" de_f64 l ;; Some (mk_jep a s t c u k z p n e i m h)).
(** metric::Data (222-236) with Gauge ... ExponentialHistogram (239-300). *)
Inductive jdata :=
| JGauge (l : list jnpoint) | JSum (l : list jnpoint) (t : Z) (mono : bool) | JHist (l : list jhpoint) (t : Z) | JExpo (l : list jepoint) (t : Z).
Definition en_data (d : jdata) : str * json :=
  match d with
  | JGauge l => field "gauge" (JObj [field "dataPoints" (en_list en_npoint l)])
  | JSum l t m => field "sum" (JObj [field "dataPoints" (en_list en_npoint l); field "aggregationTemporality" (JInt t); field "isMonotonic" (JBool m)])
  | JHist l t => field "histogram" (JObj [field "dataPoints" (en_list en_hpoint l); field "aggregationTemporality" (JInt t)])
  | JExpo l t => field "exponentialHistogram" (JObj [field "dataPoints" (en_list en_epoint l); field "aggregationTemporality" (JInt t)])
  end.
Definition data_variant (k : str) : option (json -> option jdata) :=
  let is (s : string) := str_eqb k (of_string s) in
  if is "gauge"%string then Some (obj (fun l => p <- dft "dataPoints" (de_list de_npoint) [] l ;; Some (JGauge p)))
  else if is "sum"%string then Some (obj (fun l => p <- dft "dataPoints" (de_list de_npoint) [] l ;; t <- dft "aggregationTemporality" de_i32 0 l ;;
                                            m <- dft "isMonotonic" de_bool false l ;; Some (JSum p t m)))
  else if is "histogram"%string then Some (obj (fun l => p <- dft "dataPoints" (de_list de_hpoint) [] l ;; t <- dft "aggregationTemporality" de_i32 0 l ;; Some (JHist p t)))
  else if is "exponentialHistogram"%string then Some (obj (fun l => p <- dft "dataPoints" (de_list de_epoint) [] l ;; t <- dft "aggregationTemporality" de_i32 0 l ;; Some (JExpo p t)))
  else None.
(** Metric (176-204). *)
Record jmetric := mk_jmetric { jm_name : str; jm_desc : str; jm_unit : str; jm_data : option jdata }.
Definition en_metric (m : jmetric) : json :=
  JObj ([field "name" (JStr (jm_name m)); field "description" (JStr (jm_desc m)); field "unit" (JStr (jm_unit m)); field "metadata" (JArr [])] ++
        match jm_data m with Some d => [en_data d] | None => [] end).
Definition de_metric : json -> option jmetric :=
  obj (fun l => n <- dft "name" de_str [] l ;; d <- dft "description" de_str [] l ;; u <- dft "unit" de_str [] l ;;
                Some (mk_jmetric n d u (de_flat data_variant l))).
Definition en_metrics := en_request en_metric "resourceMetrics" "scopeMetrics" "metrics".
Definition de_metrics := de_request de_metric "resourceMetrics" "scopeMetrics" "metrics".

(** ** The messages of OtlpModel.v with the Options and constant fields it leaves out *)
Fixpoint jv_of (v : any) : jv :=
  match v with
  | PString s => SV s | PBool b => BV b | PInt z => IV z | PDouble f => DV f
  | PArray l => AV (map (fun v => Some (jv_of v)) l)
  | PKvlist l => KV (map (fun kv => (fst kv, Some (Some (jv_of (snd kv))))) l)
  | PBytes b => XV b
  end.
Definition kvs_of (l : list (str * any)) : list kv := map (fun kv => (fst kv, Some (Some (jv_of (snd kv))))) l.
Definition jscope_of (s : pscope) : jscope := mk_jscope (ps_name s) (ps_version s) (kvs_of (ps_attrs s)) 0.
Definition jgroup_of {T U} (f : T -> U) (g : presource T) : jgroup U :=
  mk_jgroup (Some (mk_jres (kvs_of (r_rattrs g)) 0))
    (map (fun s => mk_jscoped (Some (jscope_of (g_scope s))) (map f (g_items s)) (g_url s)) (r_groups g)) (r_rurl g).
Definition jevent_of (e : pevent) : jevent := mk_jevent (pe_time e) (pe_name e) (kvs_of (pe_attrs e)) (Z.of_N (pe_dropped e)).
Definition jlink_of (k : plink) : jlink :=
  mk_jlink (pl_trace k) (pl_span k) (pl_state k) (kvs_of (pl_attrs k)) (Z.of_N (pl_dropped k)) (Z.of_N (pl_flags k)).
Definition jspan_of (s : pspan) : jspan :=
  mk_jspan (p_trace s) (p_span s) (p_state s) (p_parent s) (Z.of_N (p_flags s)) (p_name s) (p_kind s) (p_start s) (p_end s)
    (kvs_of (p_attrs s)) (Z.of_N (p_attrs_dropped s)) (map jevent_of (p_events s)) (Z.of_N (p_events_dropped s))
    (map jlink_of (p_links s)) (Z.of_N (p_links_dropped s)) (Some (mk_jstatus (p_message s) (p_code s))).
Definition jlog_of (r : plog) : jlog :=
  mk_jlog (q_time r) (q_observed r) (q_sev r) (q_sevtext r) (option_map (fun v => Some (jv_of v)) (q_body r)) (kvs_of (q_attrs r)) 0
    (Z.of_N (q_flags r)) (q_trace r) (q_span r) (q_event r).
Definition jex_of (e : pexemplar) : jexemplar := mk_jex (kvs_of (px_attrs e)) (px_time e) (px_span e) (px_trace e) (Some (px_value e)).
Definition jnp_of (p : pnpoint) : jnpoint := mk_jnp (kvs_of (pn_attrs p)) (pn_start p) (pn_time p) (map jex_of (pn_ex p)) (Some (pn_value p)).
Definition jhp_of (p : phpoint) : jhpoint :=
  mk_jhp (kvs_of (ph_attrs p)) (ph_start p) (ph_time p) (Z.of_N (ph_count p)) (Some (ph_sum p)) (map Z.of_N (ph_buckets p)) (ph_bounds p)
    (map jex_of (ph_ex p)) (ph_min p) (ph_max p).
Definition jep_of (p : pepoint) : jepoint :=
  mk_jep (kvs_of (pp_attrs p)) (pp_start p) (pp_time p) (Z.of_N (pp_count p)) (Some (pp_sum p)) (pp_scale p) (Z.of_N (pp_zero p))
    (Some (fst (pp_pos p), map Z.of_N (snd (pp_pos p)))) (Some (fst (pp_neg p), map Z.of_N (snd (pp_neg p))))
    (map jex_of (pp_ex p)) (pp_min p) (pp_max p) (pp_threshold p).
Definition jdata_of (d : pdata) : jdata :=
  match d with
  | PGauge l => JGauge (map jnp_of l) | PSum l t m => JSum (map jnp_of l) t m
  | PHist l t => JHist (map jhp_of l) t | PExpo l t => JExpo (map jep_of l) t
  end.
Definition jmetric_of (m : pmetric) : jmetric := mk_jmetric (pm_name m) (pm_desc m) (pm_unit m) (Some (jdata_of (pm_data m))).
