(** What the span theorems refer to: the items *offered* to a span, in order. *)
From Coq Require Import List NArith ZArith Bool.
From Verif Require Import Str ContextModel TraceModel Carrier SamplerModel SpanModel.
Import ListNotations.
Local Open Scope N_scope.

Section spec.
Context {A : Type}.

(** Attributes offered by an operation, events (name, time, attributes), links,
    status values. *)
Definition offered_attrs (o : span_op A) : list A :=
  match o with SetAttribute a => [a] | SetAttributes l => l | _ => [] end.
Definition offered_events (o : span_op A) : list (str * Z * list A) :=
  match o with AddEvent n t l => [(n, t, l)] | RecordError e t a => [(e, t, [a])] | _ => [] end.
Definition offered_links (o : span_op A) : list (span_context * list A) :=
  match o with AddLink sc l => [(sc, l)] | _ => [] end.
Definition offered_status (o : span_op A) : list status :=
  match o with SetStatus s => [s] | _ => [] end.
Definition offered_names (o : span_op A) : list str :=
  match o with UpdateName n => [n] | _ => [] end.

Definition or_nil {B : Type} (o : option (list B)) : list B := match o with Some l => l | None => [] end.
Definition builder_events (b : builder A) : list (str * Z * list A) :=
  map (fun e => (ev_name e, ev_time e, ev_attrs e)) (or_nil (sb_events b)).
Definition builder_links (b : builder A) : list (span_context * list A) :=
  map (fun k => (ln_sc k, ln_attrs k)) (or_nil (sb_links b)).

(** Keep the first [n]; report the rest, in 32 bits. *)
Definition keep {B : Type} (n : N) (l : list B) : list B := firstn (N.to_nat n) l.
Definition excess {B : Type} (n : N) (l : list B) : N := (N.of_nat (length l) - n) mod 2 ^ 32.
Definition kept_event (l : limits) (e : str * Z * list A) : event A :=
  let '(n, t, a) := e in mk_event n t (keep (max_event_attrs l) a) (excess (max_event_attrs l) a).
Definition kept_link (l : limits) (k : span_context * list A) : link A :=
  let '(sc, a) := k in mk_link sc (keep (max_link_attrs l) a) (excess (max_link_attrs l) a).

(** The data of a span that was offered these things. *)
Definition holds_offered (l : limits) (attrs : list A) (events : list (str * Z * list A))
  (links : list (span_context * list A)) (d : span_data A) : Prop :=
  sd_attrs d = keep (max_attrs l) attrs /\ sd_attrs_dropped d = excess (max_attrs l) attrs /\
  sd_events d = map (kept_event l) (keep (max_events l) events) /\ sd_events_dropped d = excess (max_events l) events /\
  sd_links d = map (kept_link l) (keep (max_links l) links) /\ sd_links_dropped d = excess (max_links l) links.

(** A life of a span, split at its first end. *)
Definition ends (a : action A) : bool := match a with End _ | DropSpan _ => true | _ => false end.
Definition ops_of (l : list (action A)) : list (span_op A) :=
  flat_map (fun a => match a with Op o => [o] | _ => [] end) l.
Definition shut_in (l : list (action A)) : Prop := In ProviderShutdown l.

(** Precedence of statuses: Ok, then Error (by description), then Unset. *)
Inductive str_lt : str -> str -> Prop :=
| lt_nil : forall y b, str_lt [] (y :: b)
| lt_head : forall x y a b, x < y -> str_lt (x :: a) (y :: b)
| lt_tail : forall x a b, str_lt a b -> str_lt (x :: a) (x :: b).
Inductive weaker : status -> status -> Prop :=
| weak_refl : forall s, weaker s s
| weak_unset : forall s, weaker Unset s
| weak_ok : forall s, weaker s StatusOk
| weak_error : forall a b, str_lt a b -> weaker (Error a) (Error b).

(** Spans created below one another.  [created parent child]: child was started by
    some tracer in a context whose active span is [parent]. *)
Definition sampled (sc : span_context) : bool := N.testbit (sc_flags sc) 0.
End spec.
