(** Theorems for C17-C21 and C68. *)
From Coq Require Import String List Arith NArith Bool Lia.
From Coq Require Import ZifyBool ZifyNat ZifyN.
From stdpp Require Import base gmap.
From Verif Require Import Str StrProofs ContextModel Carrier BaggageModel TraceModel TraceSpec TraceProofs
  W3CModel W3CSpec W3CProofs PropModel PropSpec PropProofs.
Import ListNotations.
Local Open Scope N_scope.

(** A sampled context used in the examples. *)
Definition ex_sc (f : N) : span_context := mk_sc 0x4bf92f3577b34da6a3ce929d0e0e4736 0x00f067aa0ba902b7 f false None.
Definition ex_cx (f : N) : context span_context unit := mk_context (Some (ex_sc f)) None false.

(** * C17: B3 round trip *)

(** Whatever the carrier held before, the single header encodings restore
    both ids and the state [b3_returned]. *)
Theorem C17_single_roundtrip : forall (V : Type) (e : b3_encoding) (cx : context span_context V) (c : carrier),
  uses_single e = true -> sc_typed (cx_span_context cx) = true -> sc_is_valid (cx_span_context cx) = true ->
  b3_extract_sc e (b3_inject e cx c) =
    Some (mk_sc (sc_trace (cx_span_context cx)) (sc_span (cx_span_context cx))
            (b3_returned e (sc_flags (cx_span_context cx))) true None).
Proof. intros. apply b3_roundtrip_single; auto. Qed.
Print Assumptions C17_single_roundtrip.

(** The multi header encodings, on a carrier without previous B3 state. *)
Theorem C17_multi_roundtrip : forall (V : Type) (e : b3_encoding) (cx : context span_context V) (c : carrier),
  uses_single e = false -> sc_typed (cx_span_context cx) = true -> sc_is_valid (cx_span_context cx) = true ->
  cr_get B3_SINGLE c = None -> cr_get B3_DEBUG c = None -> cr_get B3_SAMPLED c = None ->
  b3_extract_sc e (b3_inject e cx c) =
    Some (mk_sc (sc_trace (cx_span_context cx)) (sc_span (cx_span_context cx))
            (b3_returned e (sc_flags (cx_span_context cx))) true None).
Proof. intros. apply b3_roundtrip_multi; auto. Qed.
Print Assumptions C17_multi_roundtrip.

(** Plain sampled / not sampled / deferred / debug decisions come back as they were. *)
Theorem C17_states_preserved : forall (e : b3_encoding),
  b3_returned e 0 = 0 /\ b3_returned e 1 = 1 /\ b3_returned e 2 = 2 /\
  (uses_single e = true -> b3_returned e 4 = 4) /\ (uses_single e = false -> b3_returned e 5 = 5).
Proof. destruct e; repeat split; try discriminate. Qed.
Print Assumptions C17_states_preserved.

(** Refuted: a sampled debug span loses the sampled bit through the single header. *)
Theorem C94_single_debug_loses_sampled_refuted : exists (cx : context span_context unit) (c : carrier) sc',
  sc_is_valid (cx_span_context cx) = true /\ sc_is_sampled (cx_span_context cx) = true /\
  b3_extract_sc SingleHeader (b3_inject SingleHeader cx c) = Some sc' /\ sc_is_sampled sc' = false.
Proof.
  exists (ex_cx 5), ∅. eexists. split; [reflexivity|]. split; [reflexivity|].
  split; [apply C17_single_roundtrip; reflexivity|reflexivity].
Qed.
Print Assumptions C94_single_debug_loses_sampled_refuted.

(** Refuted: the multi header encoding does not clear a stale x-b3-flags. *)
Theorem C94_multi_stale_flags_refuted : exists (cx : context span_context unit) (c : carrier) sc',
  sc_is_valid (cx_span_context cx) = true /\ sc_is_sampled (cx_span_context cx) = true /\
  b3_extract_sc MultipleHeader (b3_inject MultipleHeader cx c) = Some sc' /\ sc_is_sampled sc' = false.
Proof.
  exists (ex_cx 1), {[ B3_DEBUG := of_string "0" ]}. eexists. split; [reflexivity|]. split; [reflexivity|].
  split; [vm_compute; reflexivity|reflexivity].
Qed.
Print Assumptions C94_multi_stale_flags_refuted.

(** Exactly which headers are accepted. *)
Theorem C17_single_language : forall (e : b3_encoding) (c : carrier) sc, b3_extract_single e c = Some sc <->
  exists t s f, b3_single_text e (cr_get_or B3_SINGLE [] c) t s f /\ t <> 0 /\ s <> 0 /\ sc = mk_sc t s f true None.
Proof. exact b3_single_spec. Qed.
Print Assumptions C17_single_language.
Theorem C17_multi_language : forall (e : b3_encoding) (c : carrier) sc, b3_extract_multi e c = Some sc <->
  exists t s f, b3_multi_text e c t s f /\ t <> 0 /\ s <> 0 /\ sc = mk_sc t s f true None.
Proof. exact b3_multi_spec. Qed.
Print Assumptions C17_multi_language.
(** The single header, when it is understood, wins over the multi headers. *)
Theorem C17_single_first : forall (e : b3_encoding) (c : carrier),
  b3_extract_sc e c = match b3_extract_single e c with Some s => Some s | None => b3_extract_multi e c end.
Proof. reflexivity. Qed.
Print Assumptions C17_single_first.

Example C17_nonvacuous :
  b3_extract_sc SingleHeader (b3_inject SingleHeader (ex_cx 1) ∅) =
    Some (mk_sc 0x4bf92f3577b34da6a3ce929d0e0e4736 0x00f067aa0ba902b7 1 true None) /\
  cr_get B3_SINGLE (b3_inject SingleHeader (ex_cx 1) ∅) =
    Some (of_string "4bf92f3577b34da6a3ce929d0e0e4736-00f067aa0ba902b7-1") /\
  b3_extract_sc MultipleHeader (b3_inject MultipleHeader (ex_cx 5) ∅) =
    Some (mk_sc 0x4bf92f3577b34da6a3ce929d0e0e4736 0x00f067aa0ba902b7 5 true None).
Proof. repeat split; vm_compute; reflexivity. Qed.

(** * C18: headers written by the B3 injector *)

(** Everything the injector writes, for every encoding. *)
Theorem C18_written_headers : forall (V : Type) (e : b3_encoding) (cx : context span_context V) (c : carrier) sc f c',
  cx_span_context cx = sc -> sc_flags sc = f -> b3_inject e cx c = c' ->
  (if sc_is_valid sc then
    cr_get B3_SINGLE c' = (if uses_single e then Some (b3_single_value sc) else cr_get B3_SINGLE c) /\
    cr_get B3_TRACE c' = Some (trace_id_display (sc_trace sc)) /\
    cr_get B3_SPAN c' = Some (span_id_display (sc_span sc)) /\
    cr_get B3_DEBUG c' = (if debug_bit f then Some (of_string "1") else cr_get B3_DEBUG c) /\
    cr_get B3_SAMPLED c' =
      (if debug_bit f || deferred_bit f then cr_get B3_SAMPLED c
       else Some (if sampled_bit f then of_string "1" else of_string "0"))
  else
    cr_get B3_SINGLE c' =
      (if uses_single e then Some (if sampled_bit f then of_string "1" else of_string "0") else cr_get B3_SINGLE c) /\
    cr_get B3_SAMPLED c' = Some (if sampled_bit f then of_string "1" else of_string "0") /\
    cr_get B3_TRACE c' = cr_get B3_TRACE c /\ cr_get B3_SPAN c' = cr_get B3_SPAN c /\
    cr_get B3_DEBUG c' = cr_get B3_DEBUG c) /\
  (forall k, ~ In k [B3_SINGLE; B3_TRACE; B3_SPAN; B3_DEBUG; B3_SAMPLED] -> c' !! k = c !! k).
Proof.
  intros V e cx c sc f c' H1 H2 H3. split; [exact (b3_inject_gets e cx c sc f c' H1 H2 H3)|].
  intros k Hk. subst c'. apply b3_inject_other, Hk.
Qed.
Print Assumptions C18_written_headers.

(** The multi header encodings never touch b3, and announce all they write. *)
Theorem C18_multi_only_multi : forall (V : Type) (e : b3_encoding) (cx : context span_context V) (c : carrier),
  uses_single e = false ->
  b3_inject e cx c !! B3_SINGLE = c !! B3_SINGLE /\
  (forall k, ~ In k (b3_fields e) -> b3_inject e cx c !! k = c !! k).
Proof.
  intros V e cx c He. split; [apply b3_inject_single_unchanged, He|]. intros k Hk.
  assert (~ In k B3_MULTI_FIELDS) as Hm by (destruct e; [exact Hk|exact Hk|discriminate|discriminate]).
  destruct (str_eq_dec k B3_SINGLE) as [->|Hn]; [apply b3_inject_single_unchanged, He|].
  apply b3_inject_other. intros Hin. cbn [In] in Hin. apply Hm. unfold B3_MULTI_FIELDS. cbn [In].
  destruct Hin as [X|[X|[X|[X|[X|[]]]]]]; [congruence|tauto..].
Qed.
Print Assumptions C18_multi_only_multi.

(** The combined encoding writes both forms and announces all of them. *)
Theorem C18_both : forall (V : Type) (cx : context span_context V) (c : carrier),
  forall k, ~ In k (b3_fields SingleAndMultiHeader) -> b3_inject SingleAndMultiHeader cx c !! k = c !! k.
Proof. intros V cx c k Hk. apply b3_inject_other. intros H. apply Hk.
  change (In k (B3_SINGLE :: B3_MULTI_FIELDS)). unfold B3_MULTI_FIELDS. cbn [In] in *. tauto.
Qed.
Print Assumptions C18_both.

(** Refuted for the single header encoding: the x-b3-* headers are written for
    every valid context, although fields() names b3 only. *)
Theorem C95_single_writes_multi_refuted : forall (V : Type) (cx : context span_context V) (c : carrier),
  sc_is_valid (cx_span_context cx) = true ->
  cr_get B3_TRACE (b3_inject SingleHeader cx c) = Some (trace_id_display (sc_trace (cx_span_context cx))) /\
  cr_get B3_SPAN (b3_inject SingleHeader cx c) = Some (span_id_display (sc_span (cx_span_context cx))) /\
  b3_fields SingleHeader = [B3_SINGLE].
Proof.
  intros V cx c H. destruct (C18_written_headers V SingleHeader cx c _ _ _ eq_refl eq_refl eq_refl) as [G _].
  rewrite H in G. destruct G as (_ & G1 & G2 & _). auto.
Qed.
Print Assumptions C95_single_writes_multi_refuted.

Example C18_nonvacuous : sc_is_valid (cx_span_context (ex_cx 1)) = true /\
  cr_get B3_TRACE (b3_inject MultipleHeader (ex_cx 1) ∅) = Some (of_string "4bf92f3577b34da6a3ce929d0e0e4736") /\
  cr_get B3_SAMPLED (b3_inject MultipleHeader (ex_cx 1) ∅) = Some (of_string "1") /\
  cr_get B3_SINGLE (b3_inject MultipleHeader (ex_cx 1) ∅) = None.
Proof. repeat split; vm_compute; reflexivity. Qed.

(** * C19: Jaeger round trip *)

(** The propagator restores ids, sampled and debug bits; the trace state is
    whatever the carrier's prefixed headers say. *)
Theorem C19_roundtrip : forall (V : Type) (j : jaeger) (order : list str) (cx : context span_context V) (c : carrier) st,
  sc_typed (cx_span_context cx) = true -> sc_is_valid (cx_span_context cx) = true ->
  ts_from_key_value (jg_state_pairs j order (jg_inject j cx c)) = Ok st ->
  jg_extract_sc j order (jg_inject j cx c) =
    Some (mk_sc (sc_trace (cx_span_context cx)) (sc_span (cx_span_context cx))
            (jg_returned (sc_flags (cx_span_context cx))) true st).
Proof. intros. eapply jg_roundtrip; eauto. Qed.
Print Assumptions C19_roundtrip.

(** No header with the baggage prefix: the state comes back empty. *)
Theorem C19_roundtrip_plain : forall (V : Type) (j : jaeger) (order : list str) (cx : context span_context V) (c : carrier),
  sc_typed (cx_span_context cx) = true -> sc_is_valid (cx_span_context cx) = true ->
  (forall k, In k order -> starts_with (jg_prefix j) k = false) ->
  jg_extract_sc j order (jg_inject j cx c) =
    Some (mk_sc (sc_trace (cx_span_context cx)) (sc_span (cx_span_context cx))
            (jg_returned (sc_flags (cx_span_context cx))) true None).
Proof.
  intros V j order cx c Ht Hv Ho. apply C19_roundtrip; [exact Ht|exact Hv|].
  rewrite (jg_no_pairs j order _ Ho). reflexivity.
Qed.
Print Assumptions C19_roundtrip_plain.

(** Sampled and debug bits come back for the flag values a tracer produces. *)
Theorem C19_flags_preserved : jg_returned 0 = 0 /\ jg_returned 1 = 1 /\ jg_returned 5 = 5 /\
  (forall f, sampled_bit (jg_returned f) = sampled_bit f) /\
  (forall f, debug_bit (jg_returned f) = sampled_bit f && debug_bit f).
Proof.
  repeat split; intros f; unfold jg_returned; destruct (sampled_bit f), (debug_bit f); reflexivity.
Qed.
Print Assumptions C19_flags_preserved.

(** Exactly the accepted headers. *)
Theorem C19_language : forall (j : jaeger) (order : list str) (c : carrier) sc, jg_extract_sc j order c = Some sc <->
  exists t s f st, jg_text (jg_decoded (cr_get_or (jg_header j) [] c)) t s f /\
    ts_from_key_value (jg_state_pairs j order c) = Ok st /\ sc = mk_sc t s f true st.
Proof. exact jg_extract_spec. Qed.
Print Assumptions C19_language.

(** Which headers the trace state is made of: those of the carrier whose names begin with
    the prefix, each with its own value, in the order in which the carrier lists them. *)
Theorem C19_state_headers : forall (j : jaeger) (order : list str) (c : carrier),
  (forall k v, In (k, v) (jg_state_pairs j order c) <->
     In k order /\ (exists rest, k = jg_prefix j ++ rest) /\ cr_get k c = Some v) /\
  exists keep, map fst (jg_state_pairs j order c) = List.filter keep order.
Proof.
  assert (P : forall p s, starts_with p s = true <-> exists rest, s = p ++ rest).
  { induction p as [|a p IH]; intros s; cbn; [split; eauto|]. destruct s as [|b s]; [split; [discriminate|intros (r & E); discriminate]|].
    rewrite andb_true_iff, N.eqb_eq, IH. split; [intros [-> (r & ->)]; exists r; reflexivity|intros (r & E); injection E as -> ->; split; [reflexivity|exists r; reflexivity]]. }
  intros j order c. unfold jg_state_pairs. split.
  - intros k v. rewrite in_flat_map. split.
    + intros (x & Hx & Hi). apply filter_In in Hx. destruct Hx as [Hx Hp]. destruct (cr_get x c) as [w|] eqn:E; [|destruct Hi].
      destruct Hi as [Hi|[]]. injection Hi as -> ->. split; [exact Hx|]. split; [apply P, Hp|exact E].
    + intros (Hi & Hp & E). exists k. split; [apply filter_In; split; [exact Hi|apply P, Hp]|]. rewrite E. left. reflexivity.
  - exists (fun k => starts_with (jg_prefix j) k && match cr_get k c with Some _ => true | None => false end).
    induction order as [|k r IH]; [reflexivity|]. cbn [List.filter]. destruct (starts_with (jg_prefix j) k); cbn [andb]; [|exact IH].
    cbn [flat_map]. destruct (cr_get k c); cbn [app map fst]; rewrite IH; reflexivity.
Qed.
Print Assumptions C19_state_headers.

(** A header with a ':' is read as it is; one where each ':' was sent as "%3A"
    is read as if it had not been encoded. *)
Theorem C19_decoding : (forall h, In 58 h -> jg_decoded h = h) /\
  (forall h h', pct_encoded h h' -> ~ In 58 h' -> jg_decoded h' = h).
Proof. split; [exact decoded_plain|exact decoded_encoded]. Qed.
Print Assumptions C19_decoding.

(** Only the header of the propagator is written, and only for valid contexts. *)
Theorem C19_injection : forall (V : Type) (j : jaeger) (cx : context span_context V) (c : carrier),
  jg_inject j cx c = if sc_is_valid (cx_span_context cx)
                     then cr_set (jg_header j) (jg_value (cx_span_context cx)) c else c.
Proof.
  intros V j cx c. destruct (sc_is_valid (cx_span_context cx)) eqn:E; [apply jg_inject_value, E|].
  unfold jg_inject. cbv zeta. rewrite E. reflexivity.
Qed.
Print Assumptions C19_injection.

(** Refuted: a foreign prefixed header whose name is no trace state key makes
    the whole context vanish (here the carrier already has "uberctx-" with an
    upper-case-free but invalid key). *)
Theorem C96_bad_state_drops_context_refuted : exists (cx : context span_context unit) (c : carrier) (order : list str),
  sc_typed (cx_span_context cx) = true /\ sc_is_valid (cx_span_context cx) = true /\
  jg_extract_sc jaeger_new order (jg_inject jaeger_new cx c) = None.
Proof.
  exists (ex_cx 1), {[ of_string "uberctx-user.id" := of_string "7" ]}, [of_string "uber-trace-id"; of_string "uberctx-user.id"].
  split; [reflexivity|]. split; [reflexivity|]. vm_compute. reflexivity.
Qed.
Print Assumptions C96_bad_state_drops_context_refuted.

Example C19_nonvacuous :
  cr_get JAEGER_HEADER (jg_inject jaeger_new (ex_cx 1) ∅) =
    Some (of_string "4bf92f3577b34da6a3ce929d0e0e4736:00f067aa0ba902b7:0:1") /\
  jg_extract_sc jaeger_new [of_string "uber-trace-id"; of_string "uberctx-user"]
    (cr_set (of_string "uberctx-user") (of_string "7") (jg_inject jaeger_new (ex_cx 5) ∅)) =
    Some (mk_sc 0x4bf92f3577b34da6a3ce929d0e0e4736 0x00f067aa0ba902b7 5 true
            (Some [(of_string "uberctx-user", of_string "7")])) /\
  jg_decoded (of_string "1%3A2%3A0%3A1") = of_string "1:2:0:1".
Proof. repeat split; vm_compute; reflexivity. Qed.

(** * C20: extraction never installs an invalid remote parent *)

(** The context after extraction either is the old one or has a valid, typed,
    remote span context. *)
Definition safe_extract {V : Type} (p : propagator V) : Prop :=
  forall cx c, pr_extract p cx c = cx \/
    exists sc, pr_extract p cx c = cx_with_span sc cx /\
      sc_trace sc <> 0 /\ sc_span sc <> 0 /\ sc_remote sc = true /\ sc_typed sc = true.

Lemma slot_safe {V : Type} (p : propagator V) (f : carrier -> option span_context) : span_slot p f ->
  (forall c sc, f c = Some sc -> sc_is_valid sc = true /\ sc_remote sc = true /\ sc_typed sc = true) -> safe_extract p.
Proof.
  intros Hs Hf cx c. rewrite (Hs cx c). destruct (f c) as [sc|] eqn:E; [right|left; reflexivity].
  destruct (Hf c sc E) as (H1 & H2 & H3). exists sc. split; [reflexivity|].
  unfold sc_is_valid in H1. apply andb_true_iff in H1 as [A B]. rewrite negb_true_iff, N.eqb_neq in A, B. auto.
Qed.

Theorem C20_b3_safe : forall (V : Type) (e : b3_encoding), safe_extract (V:=V) (b3_propagator e).
Proof.
  intros V e. apply (slot_safe _ (b3_extract_sc e)); [apply b3_extract_slot|].
  intros c sc H. apply b3_extract_valid in H as (H1 & H2 & H3 & _). auto.
Qed.
Print Assumptions C20_b3_safe.

Theorem C20_w3c_safe : forall (V : Type), safe_extract (V:=V) w3c_propagator.
Proof.
  intros V cx c. destruct (extract_keeps cx c) as [E|(sc & E & H1 & H2 & _ & H3 & _)]; [left; exact E|right].
  exists sc. split; [exact E|]. unfold sc_is_valid in H1. apply andb_true_iff in H1 as [A B].
  rewrite negb_true_iff, N.eqb_neq in A, B. auto.
Qed.
Print Assumptions C20_w3c_safe.

(** Jaeger: what is installed is remote and in range, but may be all zero. *)
Theorem C97_jaeger_partial : forall (V : Type) (j : jaeger) (ord : carrier -> list str) (cx : context span_context V) (c : carrier),
  pr_extract (jg_propagator j ord) cx c = cx \/
  exists sc, pr_extract (jg_propagator j ord) cx c = cx_with_span sc cx /\
    sc_remote sc = true /\ sc_typed sc = true.
Proof.
  intros V j ord cx c. rewrite (jg_slot j ord cx c). destruct (jg_extract_sc j (ord c) c) as [sc|] eqn:E; [right|left; reflexivity].
  exists sc. split; [reflexivity|]. apply jg_extract_spec in E as (t & s & f & st & Ht & _ & ->).
  split; [reflexivity|]. destruct Ht as (p0 & p1 & p2 & p3 & tr & _ & _ & _ & _ & _ & B1 & _ & B2 & _ & d & _ & ->).
  unfold sc_typed. cbn [sc_trace sc_span sc_flags]. rewrite !andb_true_iff, !N.ltb_lt.
  split; [split; [exact B1|exact B2]|]. destruct (N.testbit d 0), (N.testbit d 1); reflexivity.
Qed.
Print Assumptions C97_jaeger_partial.

Theorem C97_jaeger_refuted : exists (c : carrier), forall (V : Type) (ord : carrier -> list str) (cx : context span_context V),
  ord c = [of_string "uber-trace-id"] ->
  pr_extract (jg_propagator jaeger_new ord) cx c = cx_with_span (mk_sc 0 0 1 true None) cx.
Proof.
  exists {[ JAEGER_HEADER := of_string "0::0:1" ]}. intros V ord cx Ho.
  rewrite (jg_slot jaeger_new ord cx _), Ho.
  assert (jg_extract_sc jaeger_new [of_string "uber-trace-id"] {[ JAEGER_HEADER := of_string "0::0:1" ]} =
    Some (mk_sc 0 0 1 true None)) as -> by (vm_compute; reflexivity). reflexivity.
Qed.
Print Assumptions C97_jaeger_refuted.

(** A composite of safe span propagators and value propagators is safe for the span. *)
Theorem C20_composite_safe : forall (V : Type) (ps : list (propagator V)), Forall safe_extract ps -> safe_extract (composite ps).
Proof.
  intros V ps H cx c. cbn [pr_extract composite]. unfold comp_extract.
  assert (forall cx0, (cx0 = cx \/ exists sc, cx0 = cx_with_span sc cx /\
      sc_trace sc <> 0 /\ sc_span sc <> 0 /\ sc_remote sc = true /\ sc_typed sc = true) ->
    (fold_left (fun cx1 p => pr_extract p cx1 c) ps cx0 = cx \/ exists sc, fold_left (fun cx1 p => pr_extract p cx1 c) ps cx0 = cx_with_span sc cx /\
      sc_trace sc <> 0 /\ sc_span sc <> 0 /\ sc_remote sc = true /\ sc_typed sc = true)) as G; [|apply G; left; reflexivity].
  induction H as [|p ps Hp H IH]; intros cx0 H0; [exact H0|]. cbn [fold_left]. apply IH.
  destruct (Hp cx0 c) as [E|(sc & E & R)]; rewrite E; [exact H0|]. right. exists sc. split; [|exact R].
  destruct H0 as [->|(sc' & -> & _)]; reflexivity.
Qed.
Print Assumptions C20_composite_safe.

Example C20_nonvacuous :
  b3_extract_sc MultipleHeader {[ B3_SINGLE := of_string "4bf92f3577b34da6a3ce929d0e0e4736-00f067aa0ba902b7-1" ]} =
    Some (mk_sc 0x4bf92f3577b34da6a3ce929d0e0e4736 0x00f067aa0ba902b7 1 true None) /\
  b3_extract_sc MultipleHeader {[ B3_SINGLE := of_string "00000000000000000000000000000000-00f067aa0ba902b7-1" ]} = None.
Proof. repeat split; vm_compute; reflexivity. Qed.

(** * C21: composite propagators *)

Theorem C21_inject_in_order : forall (V : Type) (p : propagator V) ps (cx : context span_context V) (c : carrier),
  pr_inject (composite []) cx c = c /\
  pr_inject (composite (p :: ps)) cx c = pr_inject (composite ps) cx (pr_inject p cx c).
Proof. intros. split; reflexivity. Qed.
Print Assumptions C21_inject_in_order.
Theorem C21_extract_in_order : forall (V : Type) (p : propagator V) ps (cx : context span_context V) (c : carrier),
  pr_extract (composite []) cx c = cx /\
  pr_extract (composite (p :: ps)) cx c = pr_extract (composite ps) (pr_extract p cx c) c.
Proof. intros. split; reflexivity. Qed.
Print Assumptions C21_extract_in_order.
(** Nesting composites is concatenation. *)
Theorem C21_nesting : forall (V : Type) (ps qs : list (propagator V)) (cx : context span_context V) (c : carrier),
  pr_inject (composite [composite ps; composite qs]) cx c = pr_inject (composite (ps ++ qs)) cx c /\
  pr_extract (composite [composite ps; composite qs]) cx c = pr_extract (composite (ps ++ qs)) cx c.
Proof.
  intros V ps qs cx c. cbn [pr_inject pr_extract composite]. rewrite comp_inject_app, comp_extract_app. split; reflexivity.
Qed.
Print Assumptions C21_nesting.
Theorem C21_fields_union : forall (V : Type) (ps : list (propagator V)),
  (forall k, In k (pr_fields (composite ps)) <-> exists p, In p ps /\ In k (pr_fields p)) /\
  List.NoDup (pr_fields (composite ps)).
Proof. intros V ps. split; [intros k; apply comp_fields_in|apply List.NoDup_nodup]. Qed.
Print Assumptions C21_fields_union.

(** Members with disjoint names commute on injection ... *)
Theorem C21_inject_commutes : forall (V : Type) (p q : propagator V) (np nq : list str) (cx : context span_context V) (c : carrier),
  writes_only p np -> writes_only q nq -> local_writes p -> local_writes q ->
  (forall k, In k np -> In k nq -> False) ->
  pr_inject (composite [p; q]) cx c = pr_inject (composite [q; p]) cx c.
Proof. intros V p q np nq cx c. exact (writes_commute p q np nq cx c). Qed.
Print Assumptions C21_inject_commutes.
(** ... and members with different slots commute on extraction. *)
Theorem C21_extract_commutes : forall (V : Type) (t : type_id) (p q : propagator V)
    (f : carrier -> option span_context) (g : carrier -> option V) (cx : context span_context V) (c : carrier),
  span_slot p f -> value_slot t q g ->
  pr_extract (composite [p; q]) cx c = pr_extract (composite [q; p]) cx c.
Proof. intros V t p q f g cx c. exact (slots_commute t p q f g cx c). Qed.
Print Assumptions C21_extract_commutes.
(** With several trace propagators the last one that understands its header decides. *)
Theorem C21_last_wins : forall (V : Type) (ps : list (propagator V)) (fs : list (carrier -> option span_context))
    (cx : context span_context V) (c : carrier),
  Forall2 span_slot ps fs ->
  pr_extract (composite ps) cx c =
    match last_some (map (fun f => f c) fs) with Some s => cx_with_span s cx | None => cx end.
Proof. intros V ps fs cx c. exact (comp_last ps fs cx c). Qed.
Print Assumptions C21_last_wins.
(** The provided propagators meet these hypotheses. *)
Theorem C21_provided_propagators :
  (forall V, span_slot (V:=V) w3c_propagator w3c_extract_span_context) /\
  (forall V (e : b3_encoding), span_slot (V:=V) (b3_propagator e) (b3_extract_sc e)) /\
  (forall V (j : jaeger) (ord : carrier -> list str), span_slot (V:=V) (jg_propagator j ord) (fun c => jg_extract_sc j (ord c) c)) /\
  (forall ord, value_slot TY_BAGGAGE_CONTEXT_VALUE (bg_propagator ord) (fun c => option_map bg_extract (cr_get BAGGAGE_HEADER c))) /\
  (forall V, writes_only (V:=V) w3c_propagator [TRACEPARENT; TRACESTATE] /\ local_writes (V:=V) w3c_propagator) /\
  (forall V (e : b3_encoding), writes_only (V:=V) (b3_propagator e) [B3_SINGLE; B3_TRACE; B3_SPAN; B3_DEBUG; B3_SAMPLED] /\ local_writes (V:=V) (b3_propagator e)) /\
  (forall V (j : jaeger) (ord : carrier -> list str), writes_only (V:=V) (jg_propagator j ord) [to_lower (jg_header j)] /\ local_writes (V:=V) (jg_propagator j ord)) /\
  (forall ord, writes_only (bg_propagator ord) [BAGGAGE_HEADER] /\ local_writes (bg_propagator ord)).
Proof.
  repeat match goal with |- _ /\ _ => split end; intros.
  - apply w3c_slot.
  - apply b3_extract_slot.
  - apply jg_slot.
  - apply bg_slot.
  - split; [apply w3c_writes|apply w3c_local].
  - split; [apply b3_writes|apply b3_local].
  - split; [apply jg_writes|apply jg_local].
  - split; [apply bg_writes|apply bg_local].
Qed.
Print Assumptions C21_provided_propagators.
(** The usual pair: both the trace context and the baggage travel. *)
Theorem C21_w3c_and_baggage : forall (ord : baggage -> list (str * bg_entry)) (cx cx' : context span_context baggage) (c : carrier),
  pr_extract (composite [bg_propagator ord; w3c_propagator]) cx' (pr_inject (composite [bg_propagator ord; w3c_propagator]) cx c) =
  w3c_extract (bg_extract_with_context cx'
    (match bg_inject (cx_baggage cx) (ord (cx_baggage cx)) with Some h => Some h | None => cr_get BAGGAGE_HEADER c end))
    (w3c_inject cx c).
Proof. exact comp_w3c_baggage. Qed.
Print Assumptions C21_w3c_and_baggage.

Example C21_nonvacuous :
  let p := composite [w3c_propagator; b3_propagator MultipleHeader] in
  pr_fields p = [TRACEPARENT; TRACESTATE; B3_TRACE; B3_SPAN; B3_SAMPLED; B3_DEBUG] /\
  option_map sc_trace (cx_span (pr_extract p (ex_cx 0) (cr_set B3_TRACE (of_string "000000000000000a") (pr_inject p (ex_cx 1) ∅)))) = Some 10.
Proof. split; vm_compute; reflexivity. Qed.

(** * C68: every header written is announced by fields() *)

Theorem C68_w3c : forall V, announces (V:=V) w3c_propagator.
Proof. intros V. exact w3c_writes. Qed.
Print Assumptions C68_w3c.
Theorem C68_baggage : forall ord, announces (bg_propagator ord).
Proof. exact bg_writes. Qed.
Print Assumptions C68_baggage.
Theorem C68_b3 : forall V (e : b3_encoding), e <> SingleHeader -> announces (V:=V) (b3_propagator e).
Proof.
  intros V e He cx c k Hk. destruct e; [| |contradiction|].
  - apply C18_multi_only_multi; [reflexivity|exact Hk].
  - apply C18_multi_only_multi; [reflexivity|exact Hk].
  - apply C18_both. exact Hk.
Qed.
Print Assumptions C68_b3.
Theorem C122_b3_single_refuted : ~ announces (V:=unit) (b3_propagator SingleHeader).
Proof.
  intros H. specialize (H (ex_cx 1) ∅ B3_TRACE).
  assert (pr_inject (V:=unit) (b3_propagator SingleHeader) (ex_cx 1) ∅ !! B3_TRACE =
    Some (of_string "4bf92f3577b34da6a3ce929d0e0e4736")) as E by (vm_compute; reflexivity).
  rewrite E in H. assert (Some (of_string "4bf92f3577b34da6a3ce929d0e0e4736") = None) as X; [|discriminate].
  apply H. intros [X|[]]. discriminate.
Qed.
Print Assumptions C122_b3_single_refuted.
(** Jaeger: the default, and every custom header without surrounding white space. *)
Theorem C68_jaeger : forall V h p ord, trim h = h -> announces (V:=V) (jg_propagator (jaeger_custom h p) ord).
Proof.
  intros V h p ord Ht cx c k Hk. apply jg_writes. intros [E|[]]. apply Hk.
  cbn [pr_fields jg_propagator jaeger_custom jg_fields map]. left. rewrite <- E.
  cbn [jg_header jaeger_custom]. assert (trim h = h) as Ht' by exact Ht.
  destruct (trim h) eqn:Eh; [reflexivity|]. rewrite Eh, Ht. reflexivity.
Qed.
Print Assumptions C68_jaeger.
Theorem C122_jaeger_untrimmed_refuted : exists h, forall ord, ~ announces (V:=unit) (jg_propagator (jaeger_custom h []) ord).
Proof.
  exists (of_string " x-trace "). intros ord H. specialize (H (ex_cx 1) ∅ (of_string "x-trace")).
  assert (pr_inject (V:=unit) (jg_propagator (jaeger_custom (of_string " x-trace ") []) ord) (ex_cx 1) ∅ !! of_string "x-trace" =
    Some (of_string "4bf92f3577b34da6a3ce929d0e0e4736:00f067aa0ba902b7:0:1")) as E by (vm_compute; reflexivity).
  rewrite E in H. assert (Some (of_string "4bf92f3577b34da6a3ce929d0e0e4736:00f067aa0ba902b7:0:1") = None) as X; [|discriminate].
  apply H. intros [X|[]]. discriminate.
Qed.
Print Assumptions C122_jaeger_untrimmed_refuted.
Theorem C68_composite : forall V (ps : list (propagator V)), Forall announces ps -> announces (composite ps).
Proof. exact @comp_announces. Qed.
Print Assumptions C68_composite.
Example C68_nonvacuous : announces (V:=unit) (composite [w3c_propagator; b3_propagator MultipleHeader]) /\
  pr_inject (V:=unit) w3c_propagator (ex_cx 1) ∅ !! TRACEPARENT <> None.
Proof.
  split; [|vm_compute; discriminate]. apply C68_composite. repeat constructor; [apply C68_w3c|apply C68_b3; discriminate].
Qed.

(** ** The names on the wire
    The names the theorems above use stand for these, which other implementations use too. *)
Theorem C17_C18_C68_wire_names :
  (TRACEPARENT, TRACESTATE) = (of_string "traceparent", of_string "tracestate") /\
  (B3_SINGLE, B3_TRACE, B3_SPAN) = (of_string "b3", of_string "x-b3-traceid", of_string "x-b3-spanid") /\
  (B3_SAMPLED, B3_DEBUG) = (of_string "x-b3-sampled", of_string "x-b3-flags") /\
  BAGGAGE_HEADER = of_string "baggage" /\
  jg_header jaeger_new = of_string "uber-trace-id" /\ jg_prefix jaeger_new = of_string "uberctx-" /\
  (forall V, pr_fields (w3c_propagator (V:=V)) = [of_string "traceparent"; of_string "tracestate"]) /\
  (forall ord, pr_fields (bg_propagator ord) = [of_string "baggage"]) /\
  (forall V ord, pr_fields (jg_propagator (V:=V) jaeger_new ord) = [of_string "uber-trace-id"]).
Proof. repeat split. Qed.
Print Assumptions C17_C18_C68_wire_names.
(** A custom Jaeger name is used without the space around it; a blank one means the default. *)
Theorem C19_custom_names : forall h p,
  (trim h <> [] -> jg_header (jaeger_custom h p) = trim h) /\ (trim h = [] -> jg_header (jaeger_custom h p) = of_string "uber-trace-id") /\
  (trim p <> [] -> jg_prefix (jaeger_custom h p) = trim p) /\ (trim p = [] -> jg_prefix (jaeger_custom h p) = of_string "uberctx-").
Proof.
  intros h p. unfold jaeger_custom. cbn [jg_header jg_prefix].
  split; [|split; [|split]]; intros H; (destruct (trim h) eqn:E || idtac); (destruct (trim p) eqn:E2 || idtac); try contradiction; try discriminate; auto.
Qed.
Print Assumptions C19_custom_names.
Example C19_custom_names_nonvacuous : jg_header (jaeger_custom (of_string " x ") []) = of_string "x" /\ jg_prefix (jaeger_custom (of_string " x ") []) = of_string "uberctx-".
Proof. split; reflexivity. Qed.
