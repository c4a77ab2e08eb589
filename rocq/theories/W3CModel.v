(** Model of opentelemetry-sdk/src/propagation/trace_context.rs. *)
From Coq Require Import String List NArith Bool.
From stdpp Require Import base gmap.
From Verif Require Import Str TraceModel ContextModel Carrier.
Import ListNotations.
Local Open Scope N_scope.

(** Constants (trace_context.rs:10-14). *)
Definition TRACEPARENT : str := of_string "traceparent".
Definition TRACESTATE : str := of_string "tracestate".
Definition MAX_VERSION : N := 254.
Definition SUPPORTED_VERSION : N := 0.
Definition DASH : N := 45.

Definition has_upper (s : str) : bool := existsb is_upper s.

(** [u8::from_str_radix(s, 16)]. *)
Definition parse_u8_hex (s : str) : option N := parse_hex 256 s.

(** [extract_span_context] (trace_context.rs:63-121); [None] is [Err(())]. *)
Definition w3c_extract_span_context (c : carrier) : option span_context :=
  let header_value := trim (match cr_get TRACEPARENT c with Some h => h | None => [] end) in
  match split_terminator DASH header_value with
  | p0 :: p1 :: p2 :: p3 :: rest =>
    match parse_u8_hex p0 with
    | None => None
    | Some version =>
      if (MAX_VERSION <? version) || ((version =? 0) && negb (Nat.eqb (List.length rest) 0)) then None
      else if has_upper p1 then None
      else match trace_id_from_hex p1 with
      | None => None
      | Some trace_id =>
        if has_upper p2 then None
        else match span_id_from_hex p2 with
        | None => None
        | Some span_id =>
          match parse_u8_hex p3 with
          | None => None
          | Some opts =>
            if (version =? 0) && (2 <? opts) then None
            else
              let trace_flags := N.land opts SAMPLED in
              let trace_state :=
                match cr_get TRACESTATE c with
                | Some s => match ts_from_str s with Ok t => t | Err _ => None end
                | None => None
                end in
              let sc := mk_sc trace_id span_id trace_flags true trace_state in
              if sc_is_valid sc then Some sc else None
          end
        end
      end
    end
  | _ => None
  end.

(** [inject_context] (trace_context.rs:127-141). *)
Definition w3c_header (sc : span_context) : str :=
  hex_pad 2 SUPPORTED_VERSION ++ [DASH] ++ trace_id_display (sc_trace sc) ++ [DASH]
  ++ span_id_display (sc_span sc) ++ [DASH] ++ hex_pad 2 (N.land (sc_flags sc) SAMPLED).
Definition w3c_inject {V} (cx : context span_context V) (c : carrier) : carrier :=
  let sc := cx_span_context cx in
  if sc_is_valid sc then
    cr_set TRACESTATE (ts_header (sc_state sc)) (cr_set TRACEPARENT (w3c_header sc) c)
  else c.

(** [extract_with_context] (trace_context.rs:147-151). *)
Definition w3c_extract {V} (cx : context span_context V) (c : carrier) : context span_context V :=
  match w3c_extract_span_context c with Some sc => cx_with_span sc cx | None => cx end.

Definition w3c_propagator {V} : propagator V :=
  mk_prop w3c_inject w3c_extract [TRACEPARENT; TRACESTATE].
