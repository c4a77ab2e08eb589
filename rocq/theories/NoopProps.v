(** Theorems for C143, C144 and one for C101: the no-op tracer and propagator. *)
From Coq Require Import String List NArith Bool Arith Lia.
From stdpp Require Import base gmap.
From Verif Require Import Str ContextModel TraceModel Carrier TraceSpec TraceProofs W3CModel W3CProofs GlobalModel.
From Verif Require BaggageModel PropModel SamplerModel SpanModel SpanProps.
Import ListNotations.

(** * C143: without an SDK, trace context still passes through *)
Fixpoint noop_nested {V} (n : nat) (cx : context span_context V) : context span_context V :=
  match n with O => cx | S n => noop_child (noop_nested n cx) end.
Lemma noop_nested_spec V n (cx : context span_context V) : cx_span_context (noop_nested n cx) = cx_span_context cx /\
  cx_entries (noop_nested n cx) = cx_entries cx /\ cx_suppress (noop_nested n cx) = cx_suppress cx.
Proof. induction n as [|n (A & B & C)]; [auto|]. cbn. unfold noop_start. auto. Qed.
(** Whatever spans the no-op tracer starts below a context, what the propagators write is
    what they write for the context itself. *)
Theorem C143_injected_the_same : forall V n (cx : context span_context V) (c : carrier),
  w3c_inject (noop_nested n cx) c = w3c_inject cx c /\
  (forall e, PropModel.b3_inject e (noop_nested n cx) c = PropModel.b3_inject e cx c) /\
  (forall j, PropModel.jg_inject j (noop_nested n cx) c = PropModel.jg_inject j cx c).
Proof.
  intros V n cx c. destruct (noop_nested_spec V n cx) as [E _]. unfold w3c_inject, PropModel.b3_inject, PropModel.jg_inject. rewrite E. auto.
Qed.
Print Assumptions C143_injected_the_same.
Theorem C143_baggage_the_same : forall ord n (cx : context span_context BaggageModel.baggage) (c : carrier),
  pr_inject (PropModel.bg_propagator ord) (noop_nested n cx) c = pr_inject (PropModel.bg_propagator ord) cx c.
Proof.
  intros ord n cx c. destruct (noop_nested_spec _ n cx) as (_ & E & _). cbn. unfold BaggageModel.cx_baggage, cx_get. rewrite E. reflexivity.
Qed.
Print Assumptions C143_baggage_the_same.
(** A service without an SDK between two others: the parent that the callee reads is the
    span that the caller wrote, with its trace id, sampling decision and trace state. *)
Theorem C143_forwarded : forall V n (here there : context span_context V) (incoming outgoing : carrier) sc,
  w3c_extract_span_context incoming = Some sc ->
  exists sc', w3c_extract there (w3c_inject (noop_nested n (w3c_extract here incoming)) outgoing) = cx_with_span sc' there /\
    sc_trace sc' = sc_trace sc /\ sc_span sc' = sc_span sc /\ sc_is_sampled sc' = sc_is_sampled sc /\ members (sc_state sc') = members (sc_state sc).
Proof.
  intros V n here there incoming outgoing sc He.
  assert (Ec : cx_span_context (noop_nested n (w3c_extract here incoming)) = sc).
  { rewrite (proj1 (noop_nested_spec V n _)). unfold w3c_extract. rewrite He. reflexivity. }
  assert (Hv : sc_typed sc = true /\ sc_is_valid sc = true /\ valid_members (members (sc_state sc))).
  { destruct (extract_keeps (cx_new : context span_context V) incoming) as [E|(sc0 & E & H1 & _ & _ & H2 & H3)]; unfold w3c_extract in E; rewrite He in E; [discriminate|].
    unfold cx_with_span in E. injection E as <-. auto. }
  destruct Hv as (Ht & Hvalid & Hm). rewrite <- Ec in Ht, Hvalid, Hm.
  pose proof (roundtrip (noop_nested n (w3c_extract here incoming)) outgoing Ht Hvalid Hm) as H.
  unfold w3c_extract at 1. rewrite H. rewrite Ec. eexists. split; [reflexivity|]. cbn. repeat split.
  - unfold sc_is_sampled. cbn [sc_flags]. rewrite !is_sampled_spec, !N.bit0_odd.
    pose proof (N.bit0_mod (sc_flags sc)) as Hb. rewrite N.bit0_odd in Hb. rewrite <- Hb. destruct (N.odd (sc_flags sc)); reflexivity.
  - destruct (sc_state sc) as [[|m l]|]; reflexivity.
Qed.
Print Assumptions C143_forwarded.
Example C143_nonvacuous : exists sc, w3c_extract_span_context (cr_set TRACEPARENT (of_string "00-4bf92f3577b34da6a3ce929d0e0e4736-00f067aa0ba902b7-01") ∅) = Some sc /\
  cr_get TRACEPARENT (w3c_inject (noop_nested 2 (cx_with_span sc (cx_new : context span_context unit))) ∅) =
    Some (of_string "00-4bf92f3577b34da6a3ce929d0e0e4736-00f067aa0ba902b7-01").
Proof. eexists. split; vm_compute; reflexivity. Qed.

(** * C144: extraction adds to the context it is given *)
(** The propagator that is installed until another is set answers with the current context
    of the thread instead: the context it is given, with its baggage, is lost. *)
Theorem C144_noop_extract_keeps_context_refuted : ~ (forall V (cur cx : context span_context V) (c : carrier),
  pr_extract (noop_propagator cur) cx c = cx \/ exists sc, pr_extract (noop_propagator cur) cx c = cx_with_span sc cx).
Proof.
  intros H. destruct (H unit cx_new (cx_with_value 0%N tt cx_new) ∅) as [E|[sc E]]; vm_compute in E; discriminate.
Qed.
Print Assumptions C144_noop_extract_keeps_context_refuted.
(** True when the context is the current one, as for TextMapPropagator::extract. *)
Theorem C144_current_context_kept : forall V (cur : context span_context V) (c : carrier),
  pr_extract (noop_propagator cur) cur c = cur /\ pr_inject (noop_propagator cur) cur c = c.
Proof. split; reflexivity. Qed.
Print Assumptions C144_current_context_kept.

(** C101 again: a span of the SDK below a span that was started before the SDK was
    installed.  The no-op span is an active span with an all-zero trace id, which the SDK
    span inherits. *)
Theorem C101_below_noop_span_refuted : forall A V l sample gt gs now on_start (b : SpanModel.builder A) (parent : SamplerModel.sctx V),
  cx_span parent = None -> cx_suppress parent = false ->
  sc_trace (SpanModel.sp_ctx (SpanModel.start_span l false sample gt gs now on_start b (noop_child parent))) = 0%N.
Proof.
  intros A V l sample gt gs now on_start b parent Hp Hs.
  assert (E : cx_span (noop_child parent) = Some sc_none) by (unfold noop_child, noop_start, cx_span_context; rewrite Hp; reflexivity).
  exact (proj1 (SpanProps.C28_child_of_parent A V l sample gt gs now on_start b (noop_child parent) sc_none Hs E)).
Qed.
Print Assumptions C101_below_noop_span_refuted.

