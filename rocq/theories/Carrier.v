(** Carriers and the span of a context, shared by all propagators. *)
From Coq Require Import List NArith Bool.
From stdpp Require Import base gmap.
From Verif Require Import Str TraceModel ContextModel.
Import ListNotations.

(** [HashMap<String, String>] as a carrier (opentelemetry/src/propagation/mod.rs:45-62):
    [set] and [get] lower-case the key.  Simplification: only ASCII letters
    are folded (see [Str.to_lower]). *)
Notation carrier := (@gmap str (@list_eq_dec N N_eq_dec) (@list_countable N N_eq_dec N_countable) str).
Definition cr_set (k v : str) (c : carrier) : carrier := <[to_lower k := v]> c.
Definition cr_get (k : str) (c : carrier) : option str := c !! to_lower k.

(** [TraceContextExt::span] (opentelemetry/src/trace/context.rs:286-292): a
    context is modelled with the span context of its span; [NOOP_SPAN] has
    [SpanContext::NONE]. *)
Definition cx_span_context {V} (c : context span_context V) : span_context :=
  match cx_span c with Some sc => sc | None => sc_none end.

(** [TextMapPropagator] (opentelemetry/src/propagation/text_map_propagator.rs). *)
Record propagator (V : Type) := mk_prop {
  pr_inject : context span_context V -> carrier -> carrier;
  pr_extract : context span_context V -> carrier -> context span_context V;
  pr_fields : list str }.
Arguments mk_prop {V}. Arguments pr_inject {V}. Arguments pr_extract {V}. Arguments pr_fields {V}.
