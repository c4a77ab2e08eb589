(** HTTP headers as a carrier (opentelemetry-http/src/lib.rs:14-46).

    The header map itself is the [http] crate's [HeaderMap]; what is modelled of
    it is its documented behaviour: names are compared without regard to case
    and kept in lower case, [insert] replaces all values of a name, [get]
    returns the first one.  The name and value checks are those of
    [HeaderName::from_bytes], [HeaderValue::from_str] and
    [HeaderValue::to_str] of that crate. *)
From Coq Require Import String List NArith Bool.
From stdpp Require Import base gmap.
From Verif Require Import Str TraceModel ContextModel Carrier BaggageModel W3CModel PropModel.
Import ListNotations.
Local Open Scope N_scope.

(** [HeaderMap]: name in lower case, first value and further values, as bytes. *)
Notation headers := (@gmap str (@list_eq_dec N N_eq_dec) (@list_countable N N_eq_dec N_countable) (list N * list (list N))).

(** [HeaderName::from_bytes]: one of the token characters, in any case. *)
Definition name_char (c : N) : bool :=
  is_digit c || is_lower c || is_upper c ||
  existsb (N.eqb c) [33; 35; 36; 37; 38; 39; 42; 43; 45; 46; 94; 95; 96; 124; 126].
Definition name_ok (k : str) : bool :=
  negb (Nat.eqb (List.length k) 0) && (N.of_nat (List.length k) <=? 65535) && forallb name_char k.
(** [HeaderValue::from_str]: no control byte but the tab; bytes above 127 are
    let through. *)
Definition value_byte (b : N) : bool := ((32 <=? b) && negb (b =? 127)) || (b =? 9).
(** [HeaderValue::to_str]: printable ASCII and the tab. *)
Definition readable_byte (b : N) : bool := ((32 <=? b) && (b <? 127)) || (b =? 9).

(** [HeaderInjector::set] (lib.rs:18-25). *)
Definition hm_set (k v : str) (h : headers) : headers :=
  if name_ok k then
    if forallb value_byte (utf8 v) then <[to_lower k := (utf8 v, [])]> h else h
  else h.

(** [HeaderExtractor::get] (lib.rs:36-38). *)
Definition hm_get (k : str) (h : headers) : option str :=
  if name_ok k then
    match h !! to_lower k with
    | Some (v, _) => if forallb readable_byte v then Some v else None
    | None => None
    end
  else None.

(** [HeaderExtractor::keys] (lib.rs:41-46), in some order. *)
Definition hm_keys (h : headers) : list str := map fst (map_to_list h).

(** A propagator reads a carrier through [get] (and, for Jaeger, [keys]) only,
    so extracting from headers is extracting from the carrier that answers
    like them. *)
Definition as_carrier (h : headers) : carrier :=
  omap (fun e : list N * list (list N) => if forallb readable_byte (fst e) then Some (fst e : str) else None) h.

(** A propagator writes to a carrier through [set] only: the calls it makes. *)
Definition w3c_writes {V} (cx : context span_context V) : list (str * str) :=
  let sc := cx_span_context cx in
  if sc_is_valid sc then [(TRACEPARENT, w3c_header sc); (TRACESTATE, ts_header (sc_state sc))] else [].
Definition b3_writes {V} (e : b3_encoding) (cx : context span_context V) : list (str * str) :=
  let sc := cx_span_context cx in
  let single := enc_support e SingleHeader in
  let multi := enc_support e MultipleHeader || enc_support e UnSpecified in
  let flag := if sc_is_sampled sc then of_string "1" else of_string "0" in
  if sc_is_valid sc then
    let is_deferred := has_flag (sc_flags sc) FLAG_DEFERRED in
    let is_debug := has_flag (sc_flags sc) FLAG_DEBUG in
    (if single then
       [(B3_SINGLE, trace_id_display (sc_trace sc) ++ [DASH] ++ span_id_display (sc_span sc) ++
                    (if is_deferred then [] else [DASH] ++ (if is_debug then of_string "d" else flag)))] else []) ++
    (if multi then
       [(B3_TRACE, trace_id_display (sc_trace sc)); (B3_SPAN, span_id_display (sc_span sc))] ++
       (if is_debug then [(B3_DEBUG, of_string "1")] else if is_deferred then [] else [(B3_SAMPLED, flag)])
     else [])
  else (if single then [(B3_SINGLE, flag)] else []) ++ (if multi then [(B3_SAMPLED, flag)] else []).
Definition jaeger_writes {V} (j : jaeger) (cx : context span_context V) : list (str * str) :=
  let sc := cx_span_context cx in
  if sc_is_valid sc then
    let flag := if sc_is_sampled sc then if has_flag (sc_flags sc) FLAG_DEBUG then 3 else 1 else 0 in
    [(jg_header j, trace_id_display (sc_trace sc) ++ [COLON] ++ span_id_display (sc_span sc) ++ [COLON]
       ++ of_string "0" ++ [COLON] ++ hex_pad 1 flag)]
  else [].
Definition baggage_writes (ord : baggage -> list (str * bg_entry)) (cx : context span_context baggage) : list (str * str) :=
  match bg_inject (cx_baggage cx) (ord (cx_baggage cx)) with
  | Some h => [(BAGGAGE_HEADER, h)]
  | None => []
  end.

(** The calls on the two carriers. *)
Definition cr_sets (ws : list (str * str)) (c : carrier) : carrier :=
  fold_left (fun c w => cr_set (fst w) (snd w) c) ws c.
Definition hm_sets (ws : list (str * str)) (h : headers) : headers :=
  fold_left (fun h w => hm_set (fst w) (snd w) h) ws h.
