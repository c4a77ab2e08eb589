(** Models of the B3 propagator (opentelemetry-zipkin/src/propagator/mod.rs),
    the Jaeger propagator (opentelemetry-jaeger-propagator/src/propagator.rs)
    and the composite (opentelemetry/src/propagation/composite.rs). *)
From Coq Require Import String List Arith NArith Bool.
From stdpp Require Import base gmap.
From Verif Require Import Str TraceModel ContextModel Carrier W3CModel BaggageModel.
Import ListNotations.
Local Open Scope N_scope.

(** ** B3 *)

(** Header names and flags (zipkin mod.rs:23-36). *)
Definition B3_SINGLE : str := of_string "b3".
Definition B3_DEBUG : str := of_string "x-b3-flags".
Definition B3_TRACE : str := of_string "x-b3-traceid".
Definition B3_SPAN : str := of_string "x-b3-spanid".
Definition B3_SAMPLED : str := of_string "x-b3-sampled".
Definition B3_PARENT : str := of_string "x-b3-parentspanid".
Definition FLAG_DEFERRED : N := 2.
Definition FLAG_DEBUG : N := 4.

(** [B3Encoding] (mod.rs:57-72) and its discriminants. *)
Inductive b3_encoding := UnSpecified | MultipleHeader | SingleHeader | SingleAndMultiHeader.
Definition enc_u8 (e : b3_encoding) : N :=
  match e with UnSpecified => 0 | MultipleHeader => 1 | SingleHeader => 2 | SingleAndMultiHeader => 3 end.
(** [B3Encoding::support] (mod.rs:75-79). *)
Definition enc_support (self other : b3_encoding) : bool :=
  N.land (enc_u8 self) (enc_u8 other) =? enc_u8 other.

(** [extract_trace_id] (mod.rs:108-115). *)
Definition b3_extract_trace_id (s : str) : option N :=
  if negb (str_eqb (to_lower s) s) || (negb (blen s =? 16) && negb (blen s =? 32)) then None
  else trace_id_from_hex s.
(** [extract_span_id] (mod.rs:118-125). *)
Definition b3_extract_span_id (s : str) : option N :=
  if negb (str_eqb (to_lower s) s) || negb (blen s =? 16) then None else span_id_from_hex s.

(** [extract_sampled_state] (mod.rs:130-140). *)
Definition b3_extract_sampled (e : b3_encoding) (s : str) : option N :=
  if str_eqb s (of_string "0") || str_eqb s (of_string "false") then Some 0
  else if str_eqb s (of_string "1") then Some SAMPLED
  else if str_eqb s (of_string "true") && negb (enc_support e SingleHeader) then Some SAMPLED
  else if str_eqb s (of_string "d") && enc_support e SingleHeader then Some FLAG_DEBUG
  else None.

(** [extract_debug_flag] (mod.rs:142-148). *)
Definition b3_extract_debug (s : str) : option N :=
  if str_eqb s (of_string "0") then Some 0
  else if str_eqb s (of_string "1") then Some (N.lor FLAG_DEBUG SAMPLED)
  else None.

Definition cr_get_or (k d : str) (c : carrier) : str :=
  match cr_get k c with Some v => v | None => d end.

(** The common tail of [extract_single_header] (mod.rs:158-180), given the
    flags and the outcome of the parent check. *)
Definition b3_single_finish (p0 p1 : str) (flags parent : option N) : option span_context :=
  match b3_extract_trace_id p0, b3_extract_span_id p1 with
  | Some t, Some s =>
    match flags, parent with
    | Some f, Some _ =>
      let sc := mk_sc t s f true None in
      if sc_is_valid sc then Some sc else None
    | _, _ => None
    end
  | _, _ => None
  end.
(** [extract_single_header] (mod.rs:151-181). *)
Definition b3_extract_single (e : b3_encoding) (c : carrier) : option span_context :=
  match split_terminator DASH (cr_get_or B3_SINGLE [] c) with
  | [p0; p1] => b3_single_finish p0 p1 (Some FLAG_DEFERRED) (Some 0)
  | [p0; p1; p2] => b3_single_finish p0 p1 (b3_extract_sampled e p2) (Some 0)
  | [p0; p1; p2; p3] => b3_single_finish p0 p1 (b3_extract_sampled e p2) (b3_extract_span_id p3)
  | _ => None
  end.

(** [extract_multi_header] (mod.rs:184-217).  The result of the parent check
    (mod.rs:191-193) is discarded by the code. *)
Definition b3_extract_multi (e : b3_encoding) (c : carrier) : option span_context :=
  match b3_extract_trace_id (cr_get_or B3_TRACE [] c) with
  | None => None
  | Some t =>
    match b3_extract_span_id (cr_get_or B3_SPAN [] c) with
    | None => None
    | Some s =>
      let flag :=
        match b3_extract_debug (cr_get_or B3_DEBUG [] c) with
        | Some d => Some d
        | None => match cr_get B3_SAMPLED c with
                  | Some v => b3_extract_sampled e v
                  | None => Some FLAG_DEFERRED
                  end
        end in
      match flag with
      | None => None
      | Some f => let sc := mk_sc t s f true None in
                  if sc_is_valid sc then Some sc else None
      end
    end
  end.

Definition has_flag (f bit : N) : bool := N.land f bit =? bit.

(** [inject_context] (mod.rs:223-270). *)
Definition b3_inject {V : Type} (e : b3_encoding) (cx : context span_context V) (c : carrier) : carrier :=
  let sc := cx_span_context cx in
  let single := enc_support e SingleHeader in
  let multi := enc_support e MultipleHeader || enc_support e UnSpecified in
  if sc_is_valid sc then
    let is_deferred := has_flag (sc_flags sc) FLAG_DEFERRED in
    let is_debug := has_flag (sc_flags sc) FLAG_DEBUG in
    let c :=
      if single then
        let value := trace_id_display (sc_trace sc) ++ [DASH] ++ span_id_display (sc_span sc) in
        let value :=
          if negb is_deferred then
            value ++ [DASH] ++ (if is_debug then of_string "d"
                                else if sc_is_sampled sc then of_string "1" else of_string "0")
          else value in
        cr_set B3_SINGLE value c
      else c in
    if multi then
      let c := cr_set B3_TRACE (trace_id_display (sc_trace sc)) c in
      let c := cr_set B3_SPAN (span_id_display (sc_span sc)) c in
      if is_debug then cr_set B3_DEBUG (of_string "1") c
      else if negb is_deferred then
        cr_set B3_SAMPLED (if sc_is_sampled sc then of_string "1" else of_string "0") c
      else c
    else c
  else
    let flag := if sc_is_sampled sc then of_string "1" else of_string "0" in
    let c := if single then cr_set B3_SINGLE flag c else c in
    if multi then cr_set B3_SAMPLED flag c else c.

(** [extract_with_context] (mod.rs:275-286). *)
Definition b3_extract_sc (e : b3_encoding) (c : carrier) : option span_context :=
  match b3_extract_single e c with
  | Some sc => Some sc
  | None => b3_extract_multi e c
  end.
Definition b3_extract {V : Type} (e : b3_encoding) (cx : context span_context V) (c : carrier)
  : context span_context V :=
  match b3_extract_sc e c with
  | Some sc => if sc_is_valid sc then cx_with_span sc cx else cx
  | None => cx
  end.

(** [fields] (mod.rs:288-303, field lists 38-54). *)
Definition B3_MULTI_FIELDS : list str := [B3_TRACE; B3_SPAN; B3_SAMPLED; B3_DEBUG].
Definition b3_fields (e : b3_encoding) : list str :=
  if enc_support e SingleAndMultiHeader then B3_SINGLE :: B3_MULTI_FIELDS
  else if enc_support e MultipleHeader then B3_MULTI_FIELDS
  else if enc_support e SingleHeader then [B3_SINGLE]
  else B3_MULTI_FIELDS.

Definition b3_propagator {V : Type} (e : b3_encoding) : propagator V :=
  mk_prop (b3_inject e) (b3_extract e) (b3_fields e).

(** ** Jaeger *)

Definition COLON : N := 58.
Definition JAEGER_HEADER : str := of_string "uber-trace-id".
Definition JAEGER_BAGGAGE_PREFIX : str := of_string "uberctx-".

(** [Propagator] and [with_custom_header_and_baggage] (propagator.rs:21-72). *)
Record jaeger := mk_jaeger { jg_prefix : str; jg_header : str; jg_fields : list str }.
Definition jaeger_custom (header prefix : str) : jaeger :=
  let header := match trim header with [] => JAEGER_HEADER | _ => header end in
  let prefix := match trim prefix with [] => JAEGER_BAGGAGE_PREFIX | _ => prefix end in
  mk_jaeger (trim prefix) (trim header) [header].
Definition jaeger_new : jaeger := jaeger_custom JAEGER_HEADER JAEGER_BAGGAGE_PREFIX.

(** [str::replace("%3A", ":")] (propagator.rs:79). *)
Fixpoint replace_pct3A (s : str) : str :=
  match s with
  | [] => []
  | a :: r =>
    match r with
    | b :: c :: r' =>
      if (a =? 37) && (b =? 51) && (c =? 65) then COLON :: replace_pct3A r' else a :: replace_pct3A r
    | _ => a :: replace_pct3A r
    end
  end.

(** [extract_trace_id] (propagator.rs:114-120). *)
Definition jg_extract_trace_id (s : str) : option N :=
  if 32 <? blen s then None else trace_id_from_hex s.
(** [extract_span_id] (propagator.rs:123-135); [{:0>16}] pads to 16 characters. *)
Definition jg_extract_span_id (s : str) : option N :=
  if blen s =? 16 then span_id_from_hex s
  else if 17 <=? blen s then None
  else span_id_from_hex (repeat 48 (16 - List.length s) ++ s).
(** [extract_trace_flags] (propagator.rs:143-159). *)
Definition jg_extract_flags (s : str) : option N :=
  if 2 <? blen s then None
  else match parse_dec 256 s with
       | None => None
       | Some f => if N.land f 1 =? 1 then
                     if N.land f 2 =? 2 then Some (N.lor SAMPLED FLAG_DEBUG) else Some SAMPLED
                   else Some 0
       end.

Fixpoint starts_with (p s : str) : bool :=
  match p, s with
  | [], _ => true
  | a :: p', b :: s' => (a =? b) && starts_with p' s'
  | _, [] => false
  end.

(** [extract_trace_state] (propagator.rs:161-184); [order] is the iteration
    order of [extractor.keys()]. *)
Definition jg_state_pairs (j : jaeger) (order : list str) (c : carrier) : list (str * str) :=
  flat_map (fun k => match cr_get k c with Some v => [(k, v)] | None => [] end)
           (List.filter (starts_with (jg_prefix j)) order).
Definition jg_extract_state (j : jaeger) (order : list str) (c : carrier) : option tstate :=
  match ts_from_key_value (jg_state_pairs j order c) with Ok t => Some t | Err _ => None end.

(** [extract_span_context] (propagator.rs:75-111). *)
Definition jg_extract_sc (j : jaeger) (order : list str) (c : carrier) : option span_context :=
  let h := cr_get_or (jg_header j) [] c in
  let h := if existsb (N.eqb COLON) h then h else replace_pct3A h in
  match split_terminator COLON h with
  | [p0; p1; _; p3] =>
    match jg_extract_trace_id p0, jg_extract_span_id p1, jg_extract_flags p3, jg_extract_state j order c with
    | Some t, Some s, Some f, Some st => Some (mk_sc t s f true st)
    | _, _, _, _ => None
    end
  | _ => None
  end.

(** [inject_context] (propagator.rs:188-210). *)
Definition jg_inject {V : Type} (j : jaeger) (cx : context span_context V) (c : carrier) : carrier :=
  let sc := cx_span_context cx in
  if sc_is_valid sc then
    let flag := if sc_is_sampled sc then if has_flag (sc_flags sc) FLAG_DEBUG then 3 else 1 else 0 in
    cr_set (jg_header j)
      (trace_id_display (sc_trace sc) ++ [COLON] ++ span_id_display (sc_span sc) ++ [COLON]
       ++ of_string "0" ++ [COLON] ++ hex_pad 1 flag) c
  else c.

(** [extract_with_context] (propagator.rs:212-216); [ord] gives the key order
    of a carrier. *)
Definition jg_extract {V : Type} (j : jaeger) (ord : carrier -> list str) (cx : context span_context V)
  (c : carrier) : context span_context V :=
  match jg_extract_sc j (ord c) c with Some sc => cx_with_span sc cx | None => cx end.

Definition jg_propagator {V : Type} (j : jaeger) (ord : carrier -> list str) : propagator V :=
  mk_prop (jg_inject j) (jg_extract j ord) (jg_fields j).

(** ** Baggage as a [TextMapPropagator] (opentelemetry-sdk/src/propagation/baggage.rs:80-163);
    [ord] gives the iteration order of the baggage's hash map. *)
Definition BAGGAGE_HEADER : str := of_string "baggage".
Definition bg_propagator (ord : baggage -> list (str * bg_entry)) : propagator baggage :=
  mk_prop
    (fun cx c => match bg_inject (cx_baggage cx) (ord (cx_baggage cx)) with
                 | Some h => cr_set BAGGAGE_HEADER h c
                 | None => c
                 end)
    (fun cx c => bg_extract_with_context cx (cr_get BAGGAGE_HEADER c))
    [BAGGAGE_HEADER].

(** ** Composite (composite.rs:68-111) *)
Definition comp_inject {V : Type} (ps : list (propagator V)) (cx : context span_context V) (c : carrier) : carrier :=
  fold_left (fun c p => pr_inject p cx c) ps c.
Definition comp_extract {V : Type} (ps : list (propagator V)) (cx : context span_context V) (c : carrier)
  : context span_context V :=
  fold_left (fun cx p => pr_extract p cx c) ps cx.
(** [new]: the fields are collected in a [HashSet]; the resulting order is
    unspecified, here one without duplicates. *)
Definition str_eq_dec : forall a b : str, {a = b} + {a <> b} := List.list_eq_dec N.eq_dec.
Definition comp_fields {V : Type} (ps : list (propagator V)) : list str :=
  List.nodup str_eq_dec (flat_map pr_fields ps).
Definition composite {V : Type} (ps : list (propagator V)) : propagator V :=
  mk_prop (comp_inject ps) (comp_extract ps) (comp_fields ps).
