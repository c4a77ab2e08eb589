(** Traces across services (C173, C174): a tree of spans whose parents are handed
    on within a process or, through the headers of requests, between processes
    that may be configured with different propagators.  A composition of the
    models of the propagators, the samplers and the span builder. *)
From Coq Require Import String List Arith NArith ZArith Lia Bool.
From stdpp Require Import base gmap.
From Verif Require Import Str TraceModel ContextModel Carrier TraceSpec W3CModel W3CSpec BaggageModel BaggageSpec BaggageProps PropModel PropSpec
  PropProofs W3CProofs TraceProofs TraceProps PropProps SamplerModel SpanModel SpanSpec SpanProofs SpanProps.
Import ListNotations.
Local Open Scope N_scope.

(** ** What is handed on *)

(** The propagators that a service can put into its composite; the Jaeger one
    with its default names. *)
Inductive member :=
| MW3C
| MB3 (e : b3_encoding)
| MJaeger (ord : carrier -> list str)
| MBaggage (ord : baggage -> list (str * bg_entry)).
Definition member_prop (m : member) : propagator baggage :=
  match m with
  | MW3C => w3c_propagator
  | MB3 e => b3_propagator e
  | MJaeger ord => jg_propagator jaeger_new ord
  | MBaggage ord => bg_propagator ord
  end.
(** A carrier's keys are keys of the carrier. *)
Definition member_ok (m : member) : Prop :=
  match m with MJaeger ord => forall c k, In k (ord c) -> c !! k <> None | _ => True end.
(** Both speak the same format; the encodings of B3 are one format. *)
Definition speak (m r : member) : Prop :=
  match m, r with MW3C, MW3C | MB3 _, MB3 _ | MJaeger _, MJaeger _ => True | _, _ => False end.

(** The headers of a request before anything is injected: any, except those of
    the propagators. *)
Definition fresh (c : carrier) : Prop :=
  (forall k, In k [TRACEPARENT; TRACESTATE; B3_SINGLE; B3_TRACE; B3_SPAN; B3_DEBUG; B3_SAMPLED; JAEGER_HEADER] -> c !! k = None) /\
  forall k, starts_with JAEGER_BAGGAGE_PREFIX k = true -> c !! k = None.

(** A span context as tracers make them: in range, valid, flags 0 or 1, and a
    trace state of the API. *)
Definition plain (sc : span_context) : Prop :=
  sc_typed sc = true /\ sc_is_valid sc = true /\ (sc_flags sc = 0 \/ sc_flags sc = 1) /\ ts_reach (sc_state sc).
Definition same_trace (sc sc' : span_context) : Prop :=
  sc_trace sc' = sc_trace sc /\ sc_span sc' = sc_span sc /\ sc_flags sc' = sc_flags sc.

Definition request (ms : list member) (cx : context span_context baggage) (c : carrier) : carrier :=
  pr_inject (composite (map member_prop ms)) cx c.
Definition received (rs : list member) (cx : context span_context baggage) (c : carrier) : context span_context baggage :=
  pr_extract (composite (map member_prop rs)) cx c.

(** ** One request *)

Definition b3_here (sc : span_context) (c : carrier) : Prop :=
  cr_get B3_TRACE c = Some (trace_id_display (sc_trace sc)) /\
  cr_get B3_SPAN c = Some (span_id_display (sc_span sc)) /\
  cr_get B3_SAMPLED c = Some (if sampled_bit (sc_flags sc) then of_string "1" else of_string "0").
Definition w3c_here (sc : span_context) (c : carrier) : Prop :=
  cr_get TRACEPARENT c = Some (w3c_header sc) /\ cr_get TRACESTATE c = Some (ts_header (sc_state sc)).
Definition jg_here (sc : span_context) (c : carrier) : Prop := cr_get JAEGER_HEADER c = Some (jg_value sc).

(** Each format is there as a whole, or not at all. *)
Record coherent (sc : span_context) (c : carrier) : Prop := {
  co_w3c : w3c_here sc c \/ cr_get TRACEPARENT c = None;
  co_b3 : b3_here sc c \/ cr_get B3_TRACE c = None;
  co_single : (cr_get B3_SINGLE c = Some (b3_single_value sc) /\ b3_here sc c) \/ cr_get B3_SINGLE c = None;
  co_debug : cr_get B3_DEBUG c = None;
  co_jg : jg_here sc c \/ cr_get JAEGER_HEADER c = None;
  co_prefix : forall k, starts_with JAEGER_BAGGAGE_PREFIX k = true -> c !! k = None }.

Lemma fresh_coherent sc c : fresh c -> coherent sc c.
Proof.
  intros [Hn Hp]. split; try exact Hp; try right; apply Hn; cbn [In]; tauto.
Qed.

Definition there (m : member) (sc : span_context) (c : carrier) : Prop :=
  match m with MW3C => w3c_here sc c | MB3 _ => b3_here sc c | MJaeger _ => jg_here sc c | MBaggage _ => True end.

(** Cells other than the written ones. *)
Lemma get_eq k (c c' : carrier) : c' !! to_lower k = c !! to_lower k -> cr_get k c' = cr_get k c.
Proof. auto. Qed.

Lemma plain_bits sc : plain sc -> debug_bit (sc_flags sc) = false /\ deferred_bit (sc_flags sc) = false.
Proof. intros (_ & _ & [-> | ->] & _); split; reflexivity. Qed.

Lemma prefix_not k : starts_with JAEGER_BAGGAGE_PREFIX k = true ->
  ~ In k [TRACEPARENT; TRACESTATE; B3_SINGLE; B3_TRACE; B3_SPAN; B3_DEBUG; B3_SAMPLED; JAEGER_HEADER; BAGGAGE_HEADER].
Proof. intros H Hin. cbn [In] in Hin. repeat destruct Hin as [<-|Hin]; try (vm_compute in H; discriminate H). exact Hin. Qed.

(** Injecting one member keeps the carrier coherent, and what was there. *)
Lemma inject_one cx c m : plain (cx_span_context cx) -> coherent (cx_span_context cx) c ->
  let c' := pr_inject (member_prop m) cx c in
  coherent (cx_span_context cx) c' /\ there m (cx_span_context cx) c' /\
  forall m', there m' (cx_span_context cx) c -> there m' (cx_span_context cx) c'.
Proof.
  intros Hp Hc c'. pose proof (plain_bits _ Hp) as [Hd Hf]. destruct Hp as (Ht & Hv & _ & _).
  set (sc := cx_span_context cx) in *. destruct Hc as [W B S D J P].
  destruct C21_provided_propagators as (_ & _ & _ & _ & PW & PB & PJ & PG).
  destruct m as [|e|ord|ord]; cbn [member_prop] in c'.
  - assert (c' = cr_set TRACESTATE (ts_header (sc_state sc)) (cr_set TRACEPARENT (w3c_header sc) c)) as Ec.
    { unfold c'. cbn [pr_inject w3c_propagator]. unfold w3c_inject. cbv zeta. fold sc. rewrite Hv. reflexivity. }
    clearbody c'. subst c'.
    assert (w3c_here sc (cr_set TRACESTATE (ts_header (sc_state sc)) (cr_set TRACEPARENT (w3c_header sc) c))) as Hw.
    { split; crs; reflexivity. }
    split; [split|split]; [left; exact Hw| | | | | |exact Hw|].
    + unfold b3_here. crs. exact B.
    + unfold b3_here. crs. exact S.
    + crs. exact D.
    + unfold jg_here. crs. exact J.
    + intros k Hk. pose proof (prefix_not k Hk) as Hn. unfold cr_set. rewrite !lookup_insert_ne; [apply P, Hk|..];
        intros <-; apply Hn; vm_compute; tauto.
    + intros [|e|ord|ord] H; cbn [there] in *; [exact Hw| | |exact I]; unfold b3_here, jg_here in *; crs; exact H.
  - pose proof (b3_inject_gets e cx c sc _ c' eq_refl eq_refl eq_refl) as G. rewrite Hv, Hd, Hf in G. cbn [orb] in G.
    destruct G as (G1 & G2 & G3 & G4 & G5).
    assert (forall k, ~ In k [B3_SINGLE; B3_TRACE; B3_SPAN; B3_DEBUG; B3_SAMPLED] -> c' !! k = c !! k) as Ho
      by (intros k; apply b3_inject_other).
    assert (b3_here sc c') as Hb by (split; [exact G2|split; [exact G3|exact G5]]).
    assert (cr_get TRACEPARENT c' = cr_get TRACEPARENT c /\ cr_get TRACESTATE c' = cr_get TRACESTATE c /\
            cr_get JAEGER_HEADER c' = cr_get JAEGER_HEADER c) as (O1 & O2 & O3).
    { repeat split; apply Ho; vm_compute; intros Hin; repeat destruct Hin as [Hin|Hin]; discriminate || exact Hin. }
    split; [split|split].
    + unfold w3c_here. rewrite O1, O2. exact W.
    + left; exact Hb.
    + rewrite G1. destruct (uses_single e); [left; split; [reflexivity|exact Hb]|].
      destruct S as [[S _]|S]; [left; split; [exact S|exact Hb]|right; exact S].
    + rewrite G4. exact D.
    + unfold jg_here. rewrite O3. exact J.
    + intros k Hk. rewrite Ho; [apply P, Hk|]. intros Hin. apply (prefix_not k Hk). cbn [In] in *. tauto.
    + exact Hb.
    + intros [|e'|o|o] H; cbn [there] in *; [|exact Hb| |exact I]; unfold w3c_here, jg_here in *; rewrite ?O1, ?O2, ?O3; exact H.
  - assert (c' = cr_set JAEGER_HEADER (jg_value sc) c) as Ec by (apply (jg_inject_value jaeger_new cx c Hv)).
    clearbody c'. subst c'.
    assert (jg_here sc (cr_set JAEGER_HEADER (jg_value sc) c)) as Hj by (unfold jg_here; crs; reflexivity).
    split; [split|split]; [| | | |left; exact Hj| |exact Hj|].
    + unfold w3c_here. crs. exact W.
    + unfold b3_here. crs. exact B.
    + unfold b3_here. crs. exact S.
    + crs. exact D.
    + intros k Hk. pose proof (prefix_not k Hk) as Hn. unfold cr_set. rewrite !lookup_insert_ne; [apply P, Hk|];
        intros <-; apply Hn; vm_compute; tauto.
    + intros [|e|o|o] H; cbn [there] in *; [| |exact Hj|exact I]; unfold b3_here, w3c_here in *; crs; exact H.
  - assert (forall k, ~ In k [BAGGAGE_HEADER] -> c' !! k = c !! k) as Ho by (intros k; apply (proj1 (PG ord))).
    assert (forall k, In k [TRACEPARENT; TRACESTATE; B3_SINGLE; B3_TRACE; B3_SPAN; B3_DEBUG; B3_SAMPLED; JAEGER_HEADER] ->
              cr_get k c' = cr_get k c) as Hk.
    { intros k Hk. apply Ho. cbn [In] in Hk. repeat destruct Hk as [<-|Hk]; try (intros [X|[]]; vm_compute in X; discriminate X). destruct Hk. }
    cbn [In] in Hk.
    split; [split|split].
    + unfold w3c_here. rewrite !Hk by tauto. exact W.
    + unfold b3_here. rewrite !Hk by tauto. exact B.
    + unfold b3_here. rewrite !Hk by tauto. exact S.
    + rewrite !Hk by tauto. exact D.
    + unfold jg_here. rewrite !Hk by tauto. exact J.
    + intros k Hx. rewrite Ho; [apply P, Hx|]. intros Hin. apply (prefix_not k Hx). cbn [In] in *. tauto.
    + exact I.
    + intros [|e|o|o] H; cbn [there] in *; [| | |exact I]; unfold w3c_here, b3_here, jg_here in *; rewrite !Hk by tauto; exact H.
Qed.

Lemma inject_all cx ms : plain (cx_span_context cx) -> forall c, coherent (cx_span_context cx) c ->
  coherent (cx_span_context cx) (request ms cx c) /\
  (forall m, In m ms -> there m (cx_span_context cx) (request ms cx c)) /\
  forall m', there m' (cx_span_context cx) c -> there m' (cx_span_context cx) (request ms cx c).
Proof.
  intros Hp. induction ms as [|m ms IH]; intros c Hc.
  - split; [exact Hc|]. split; [intros m []|auto].
  - destruct (inject_one cx c m Hp Hc) as (H1 & H2 & H3).
    destruct (IH _ H1) as (I1 & I2 & I3).
    change (request (m :: ms) cx c) with (request ms cx (pr_inject (member_prop m) cx c)).
    split; [exact I1|]. split; [|auto]. intros m' [<-|Hin]; [apply I3, H2|apply I2, Hin].
Qed.

(** What each format reads. *)
Definition carried (sc sc' : span_context) : Prop :=
  same_trace sc sc' /\ sc_remote sc' = true /\ plain sc'.

Lemma carried_mk sc st : plain sc -> ts_reach st ->
  carried sc (mk_sc (sc_trace sc) (sc_span sc) (sc_flags sc) true st).
Proof.
  intros (H1 & H2 & H3 & _) Hs. split; [repeat split|]. split; [reflexivity|].
  split; [exact H1|]. split; [exact H2|]. split; [exact H3|exact Hs].
Qed.

Lemma w3c_none c : cr_get TRACEPARENT c = None -> w3c_extract_span_context c = None.
Proof. intros H. unfold w3c_extract_span_context. rewrite H. reflexivity. Qed.
Lemma b3_none e c : cr_get B3_TRACE c = None -> cr_get B3_SINGLE c = None -> b3_extract_sc e c = None.
Proof.
  intros H1 H2. unfold b3_extract_sc, b3_extract_single, b3_extract_multi, cr_get_or. rewrite H1, H2. reflexivity.
Qed.
Lemma jg_none o c : cr_get JAEGER_HEADER c = None -> jg_extract_sc jaeger_new o c = None.
Proof.
  intros H. unfold jg_extract_sc, cr_get_or. change (jg_header jaeger_new) with JAEGER_HEADER. rewrite H. reflexivity.
Qed.

Lemma w3c_some sc c : plain sc -> w3c_here sc c ->
  exists sc', w3c_extract_span_context c = Some sc' /\ carried sc sc' /\ members (sc_state sc') = members (sc_state sc).
Proof.
  intros Hp [H1 H2]. set (cx := cx_with_span (V:=baggage) sc cx_new).
  assert (w3c_extract_span_context c = w3c_extract_span_context (w3c_inject cx ∅)) as E.
  { unfold w3c_extract_span_context. rewrite H1, H2. unfold w3c_inject.
    change (cx_span_context cx) with sc. rewrite (proj1 (proj2 Hp)). crs. reflexivity. }
  destruct Hp as (Ht & Hv & Hf & Hr).
  rewrite E. rewrite (roundtrip cx ∅ Ht Hv (reach_valid _ Hr)). change (cx_span_context cx) with sc.
  eexists. split; [reflexivity|]. split.
  - match goal with |- carried _ (mk_sc _ _ ?f _ ?st) =>
      assert (f = sc_flags sc) as -> by (destruct Hf as [-> | ->]; reflexivity);
      apply carried_mk; [repeat split; assumption|] end.
    destruct (sc_state sc) as [[|]|] eqn:Es; [constructor|exact Hr|constructor].
  - cbn [sc_state]. destruct (sc_state sc) as [[|]|]; reflexivity.
Qed.

Lemma b3_state_plain e f : f = 0 \/ f = 1 -> b3_state_text e (if sampled_bit f then of_string "1" else of_string "0") f.
Proof. intros [-> | ->]; [left; auto|]. do 2 right; left. auto. Qed.

Lemma b3_some e sc c : plain sc -> coherent sc c -> b3_here sc c ->
  exists sc', b3_extract_sc e c = Some sc' /\ carried sc sc'.
Proof.
  intros Hp Hc Hb. pose proof (plain_bits _ Hp) as [Hd Hdef].
  exists (mk_sc (sc_trace sc) (sc_span sc) (sc_flags sc) true None).
  split; [|apply carried_mk; [exact Hp|constructor]].
  destruct Hp as (Ht & Hv & Hf & _). destruct (typed_bounds sc Ht) as [B1 B2]. apply valid_ne in Hv as [V1 V2].
  unfold b3_extract_sc. destruct (co_single _ _ Hc) as [[S _]|S].
  - assert (b3_extract_single e c = Some (mk_sc (sc_trace sc) (sc_span sc) (sc_flags sc) true None)) as ->; [|reflexivity].
    apply b3_single_spec. exists (sc_trace sc), (sc_span sc), (sc_flags sc).
    split; [|split; [exact V1|split; [exact V2|reflexivity]]].
    unfold cr_get_or. rewrite S. unfold b3_single_value. rewrite Hd, Hdef.
    exists (trace_id_display (sc_trace sc)), (span_id_display (sc_span sc)),
      (45 :: (if sampled_bit (sc_flags sc) then of_string "1" else of_string "0")), [].
    rewrite app_nil_r. split; [reflexivity|]. split; [auto|]. split; [apply pad_b3_trace, B1|]. split; [apply pad_b3_span, B2|].
    right; left. eexists. split; [reflexivity|]. apply b3_state_plain, Hf.
  - assert (b3_extract_single e c = None) as -> by (unfold b3_extract_single, cr_get_or; rewrite S; reflexivity).
    apply b3_multi_spec. exists (sc_trace sc), (sc_span sc), (sc_flags sc).
    split; [|split; [exact V1|split; [exact V2|reflexivity]]].
    destruct Hb as (G2 & G3 & G5).
    exists (trace_id_display (sc_trace sc)), (span_id_display (sc_span sc)).
    split; [exact G2|]. split; [apply pad_b3_trace, B1|]. split; [exact G3|]. split; [apply pad_b3_span, B2|].
    right; right. rewrite (co_debug _ _ Hc). split; [discriminate|]. split; [discriminate|]. left.
    eexists. split; [exact G5|]. apply b3_state_plain, Hf.
Qed.

Lemma jg_some o sc c : plain sc -> coherent sc c -> jg_here sc c -> (forall k, In k o -> c !! k <> None) ->
  exists sc', jg_extract_sc jaeger_new o c = Some sc' /\ carried sc sc'.
Proof.
  intros Hp Hc Hj Ho. exists (mk_sc (sc_trace sc) (sc_span sc) (sc_flags sc) true None).
  split; [|apply carried_mk; [exact Hp|constructor]].
  destruct Hp as (Ht & Hv & Hf & _).
  assert (jg_returned (sc_flags sc) = sc_flags sc) as Er by (destruct Hf as [-> | ->]; reflexivity).
  apply jg_extract_spec. exists (sc_trace sc), (sc_span sc), (sc_flags sc), None.
  split; [|split; [|reflexivity]].
  - assert (cr_get_or (jg_header jaeger_new) [] c = jg_value sc) as ->.
    { change (jg_header jaeger_new) with JAEGER_HEADER. unfold cr_get_or. rewrite Hj. reflexivity. }
    rewrite decoded_plain; [rewrite <- Er; apply jg_value_text, Ht|].
    unfold jg_value. apply in_app_iff. right. left. reflexivity.
  - assert (List.filter (starts_with (jg_prefix jaeger_new)) o = []) as E.
    { change (jg_prefix jaeger_new) with JAEGER_BAGGAGE_PREFIX. pose proof (co_prefix _ _ Hc) as P. clear -P Ho.
      induction o as [|k o IH]; [reflexivity|]. cbn [List.filter]. destruct (starts_with JAEGER_BAGGAGE_PREFIX k) eqn:E.
      - destruct (Ho k (or_introl eq_refl) (P k E)).
      - apply IH. intros x Hx. apply Ho. right; exact Hx. }
    unfold jg_state_pairs. rewrite E. reflexivity.
Qed.

(** Extraction by one member: the context handed on, or the old one. *)
Lemma extract_one r sc cx c : member_ok r -> plain sc -> coherent sc c ->
  let cx' := pr_extract (member_prop r) cx c in
  cx_suppress cx' = cx_suppress cx /\
  ((cx_span cx' = cx_span cx /\ forall m, speak m r -> ~ there m sc c) \/
   exists sc', cx_span cx' = Some sc' /\ carried sc sc').
Proof.
  intros Hok Hp Hc cx'.
  destruct C21_provided_propagators as (SW & SB & SJ & SG & _).
  destruct r as [|e|ord|ord]; cbn [member_prop] in cx'.
  - unfold cx'. rewrite (SW baggage cx c). destruct (co_w3c _ _ Hc) as [W|W].
    + destruct (w3c_some _ _ Hp W) as (sc' & -> & H & _). split; [reflexivity|]. right. exists sc'. split; [reflexivity|exact H].
    + rewrite (w3c_none _ W). split; [reflexivity|]. left. split; [reflexivity|]. intros [|e|o|o] Hs; try destruct Hs.
      intros [H _]. rewrite W in H. discriminate H.
  - unfold cx'. rewrite (SB baggage e cx c). destruct (co_b3 _ _ Hc) as [B|B].
    + destruct (b3_some e _ _ Hp Hc B) as (sc' & -> & H). split; [reflexivity|]. right. exists sc'. split; [reflexivity|exact H].
    + rewrite (b3_none _ _ B).
      * split; [reflexivity|]. left. split; [reflexivity|]. intros [|e'|o|o] Hs; try destruct Hs.
        intros [H _]. rewrite B in H. discriminate H.
      * destruct (co_single _ _ Hc) as [[_ (H & _)]|S]; [rewrite B in H; discriminate H|exact S].
  - unfold cx'. rewrite (SJ baggage jaeger_new ord cx c). destruct (co_jg _ _ Hc) as [J|J].
    + destruct (jg_some (ord c) _ _ Hp Hc J (Hok c)) as (sc' & -> & H). split; [reflexivity|]. right. exists sc'. split; [reflexivity|exact H].
    + rewrite (jg_none _ _ J). split; [reflexivity|]. left. split; [reflexivity|]. intros [|e|o|o] Hs; try destruct Hs.
      intros H. unfold there, jg_here in H. rewrite J in H. discriminate H.
  - unfold cx'. rewrite (SG ord cx c). split; [destruct (option_map _ _); reflexivity|]. left.
    split; [destruct (option_map _ _); reflexivity|]. intros [|e|o|o] [].
Qed.

Lemma extract_all rs sc c : Forall member_ok rs -> plain sc -> coherent sc c -> forall cx,
  let cx' := received rs cx c in
  cx_suppress cx' = cx_suppress cx /\
  ((cx_span cx' = cx_span cx /\ forall m r, In r rs -> speak m r -> ~ there m sc c) \/
   exists sc', cx_span cx' = Some sc' /\ carried sc sc').
Proof.
  intros Hok Hp Hc. induction Hok as [|r rs Hr Hok IH]; intros cx.
  - split; [reflexivity|]. left. split; [reflexivity|intros m r []].
  - cbv zeta. change (received (r :: rs) cx c) with (received rs (pr_extract (member_prop r) cx c) c).
    destruct (extract_one r sc cx c Hr Hp Hc) as (S1 & D1). destruct (IH (pr_extract (member_prop r) cx c)) as (S2 & D2).
    split; [rewrite S2; exact S1|]. destruct D2 as [[E2 N2]|D2]; [|right; exact D2].
    destruct D1 as [[E1 N1]|(sc' & E1 & H1)].
    + left. split; [rewrite E2; exact E1|]. intros m r' [<-|Hin] Hs; [apply N1, Hs|exact (N2 m r' Hin Hs)].
    + right. exists sc'. split; [rewrite E2; exact E1|exact H1].
Qed.

(** * C173: one request, then trees of spans *)

(** Whatever propagators the two sides are configured with, in whatever order:
    if some format is spoken by both, the receiver sees the sender's span as its
    remote parent, with its sampling decision; any encoding of B3 is read by any
    other. *)
Theorem C173_one_request : forall ms rs (cx cx0 : context span_context baggage) (c : carrier),
  plain (cx_span_context cx) -> fresh c -> Forall member_ok rs ->
  (exists m r, In m ms /\ In r rs /\ speak m r) ->
  exists sc', cx_span (received rs cx0 (request ms cx c)) = Some sc' /\
    same_trace (cx_span_context cx) sc' /\ sc_remote sc' = true /\ plain sc'.
Proof.
  intros ms rs cx cx0 c Hp Hf Hok (m & r & Hm & Hr & Hs).
  destruct (inject_all cx ms Hp c (fresh_coherent _ _ Hf)) as (Hc & Ht & _).
  destruct (extract_all rs _ _ Hok Hp Hc cx0) as (_ & [[_ N]|D]); [|exact D].
  destruct (N m r Hr Hs (Ht m Hm)).
Qed.
Print Assumptions C173_one_request.

(** Without a common format nothing arrives: the receiver goes on with the span of
    its own context. *)
Definition absent (r : member) (c : carrier) : Prop :=
  match r with
  | MW3C => cr_get TRACEPARENT c = None
  | MB3 _ => cr_get B3_TRACE c = None /\ cr_get B3_SINGLE c = None
  | MJaeger _ => cr_get JAEGER_HEADER c = None
  | MBaggage _ => True
  end.
Lemma absent_kept cx c m r : ~ speak m r -> absent r c -> absent r (pr_inject (member_prop m) cx c).
Proof.
  destruct C21_provided_propagators as (_ & _ & _ & _ & PW & PB & PJ & PG).
  assert (forall names, writes_only (member_prop m) names ->
    (forall k, In k names -> ~ In k (match r with MW3C => [TRACEPARENT] | MB3 _ => [B3_TRACE; B3_SINGLE]
                                     | MJaeger _ => [JAEGER_HEADER] | MBaggage _ => [] end)) ->
    absent r c -> absent r (pr_inject (member_prop m) cx c)) as G.
  { intros names Hw Hd Ha. destruct r as [|e|o|o]; cbn [absent] in *; [| | |exact I].
    - unfold cr_get in *. rewrite Hw; [exact Ha|]. intros Hi. apply (Hd _ Hi). left; reflexivity.
    - unfold cr_get in *. rewrite !Hw; [exact Ha| |]; intros Hi; apply (Hd _ Hi); [right; left|left]; reflexivity.
    - unfold cr_get in *. rewrite Hw; [exact Ha|]. intros Hi. apply (Hd _ Hi). left; reflexivity. }
  intros Hs. destruct m as [|e|o|o]; cbn [member_prop] in G;
    [apply (G _ (proj1 (PW baggage)))|apply (G _ (proj1 (PB baggage e)))|apply (G _ (proj1 (PJ baggage jaeger_new o)))|apply (G _ (proj1 (PG o)))];
    (destruct r as [|e'|o'|o']; cbn [speak] in Hs; try (destruct (Hs I)));
    intros k Hk Hk'; vm_compute in Hk, Hk';
    repeat match goal with H : _ \/ _ |- _ => destruct H as [H|H] | H : False |- _ => destruct H end; subst k; discriminate.
Qed.

Theorem C173_no_common_format : forall ms rs (cx cx0 : context span_context baggage) (c : carrier),
  fresh c -> (forall m r, In m ms -> In r rs -> ~ speak m r) ->
  cx_span (received rs cx0 (request ms cx c)) = cx_span cx0.
Proof.
  intros ms rs cx cx0 c Hf Hno.
  assert (forall r, In r rs -> absent r (request ms cx c)) as Ha.
  { intros r Hr. assert (absent r c) as H0.
    { destruct Hf as [Hn _]. destruct r; cbn [absent]; [| | |exact I]; repeat split; apply Hn; cbn [In]; tauto. }
    assert (forall m, In m ms -> ~ speak m r) as Hm by (intros m Hm; apply Hno; assumption). clear -Hm H0.
    revert c H0. induction ms as [|m ms IH]; intros c H0; [exact H0|].
    change (request (m :: ms) cx c) with (request ms cx (pr_inject (member_prop m) cx c)).
    apply IH; [intros x Hx; apply Hm; right; exact Hx|]. apply absent_kept; [apply Hm; left; reflexivity|exact H0]. }
  clear Hno. set (c' := request ms cx c) in *. clearbody c'. revert cx0.
  destruct C21_provided_propagators as (SW & SB & SJ & SG & _).
  induction rs as [|r rs IH]; intros cx0; [reflexivity|].
  change (received (r :: rs) cx0 c') with (received rs (pr_extract (member_prop r) cx0 c') c').
  rewrite IH by (intros x Hx; apply Ha; right; exact Hx).
  specialize (Ha r (or_introl eq_refl)). destruct r as [|e|o|o]; cbn [member_prop absent] in *.
  - rewrite (SW baggage cx0 c'), (w3c_none _ Ha). reflexivity.
  - rewrite (SB baggage e cx0 c'), (b3_none _ _ (proj1 Ha) (proj2 Ha)). reflexivity.
  - rewrite (SJ baggage jaeger_new o cx0 c'), (jg_none _ _ Ha). reflexivity.
  - rewrite (SG o cx0 c'). destruct (option_map _ _); reflexivity.
Qed.
Print Assumptions C173_no_common_format.

(** Baggage travels beside the trace: if both sides have the baggage propagator
    anywhere in their composites, what the receiver gets is what the sender had. *)
Theorem C173_baggage_beside_the_trace : forall ms rs ops (cx cx0 : context span_context baggage) (c : carrier) o' o'',
  Forall (fun o => op_wf o = true) ops -> representable (bg_map (bg_run ops)) -> bg_map (bg_run ops) <> ∅ ->
  cx_baggage cx = bg_run ops -> 
  (forall o, In (MBaggage o) ms -> o (bg_run ops) ≡ₚ map_to_list (bg_map (bg_run ops))) ->
  In (MBaggage o') ms -> In (MBaggage o'') rs ->
  bg_map (cx_baggage (received rs cx0 (request ms cx c))) = bg_map (bg_run ops).
Proof.
  intros ms rs ops cx cx0 c o' o'' Hw Hr Hne Hb Ho Hm Hin.
  destruct C21_provided_propagators as (SW & SB & SJ & SG & PW & PB & PJ & PG).
  set (good := fun c : carrier => exists h, cr_get BAGGAGE_HEADER c = Some h /\ bg_map (bg_extract h) = bg_map (bg_run ops)).
  assert (forall m c, In m ms -> good c -> good (pr_inject (member_prop m) cx c)) as Hkeep.
  { intros m c0 Hm0 (h & Hh & Eh). destruct m as [|e|o|o]; cbn [member_prop].
    - exists h. split; [|exact Eh]. unfold cr_get in *. rewrite (proj1 (PW baggage)); [exact Hh|].
      intros Hi; vm_compute in Hi; repeat destruct Hi as [Hi|Hi]; discriminate || exact Hi.
    - exists h. split; [|exact Eh]. unfold cr_get in *. rewrite (proj1 (PB baggage e)); [exact Hh|].
      intros Hi; vm_compute in Hi; repeat destruct Hi as [Hi|Hi]; discriminate || exact Hi.
    - exists h. split; [|exact Eh]. unfold cr_get in *. rewrite (proj1 (PJ baggage jaeger_new o)); [exact Hh|].
      intros Hi; vm_compute in Hi; repeat destruct Hi as [Hi|Hi]; discriminate || exact Hi.
    - cbn [pr_inject bg_propagator]. rewrite Hb.
      pose proof (C08_inject_extract ops (o (bg_run ops)) Hw Hr (Ho o Hm0)) as R.
      destruct (bg_inject (bg_run ops) (o (bg_run ops))) as [h'|]; [|exists h; split; assumption].
      exists h'. split; [crs; reflexivity|exact R]. }
  assert (forall l c, (forall m, In m l -> In m ms) -> good c -> good (request l cx c)) as Hall.
  { induction l as [|m l IH]; intros c0 Hs Hg; [exact Hg|]. apply (IH (pr_inject (member_prop m) cx c0)); [intros x Hx; apply Hs; right; exact Hx|].
    apply Hkeep; [apply Hs; left; reflexivity|exact Hg]. }
  assert (good (request ms cx c)) as (h & Hh & Eh).
  { apply in_split in Hm as (l1 & l2 & E).
    assert (request ms cx c = request l2 cx (pr_inject (bg_propagator o') cx (request l1 cx c))) as ->.
    { rewrite E. unfold request. cbn [pr_inject composite]. unfold comp_inject. rewrite map_app, fold_left_app. reflexivity. }
    apply Hall; [intros m Hx; rewrite E; apply in_app_iff; right; right; exact Hx|].
    cbn [pr_inject bg_propagator]. rewrite Hb.
    assert (In (MBaggage o') ms) as Hm by (rewrite E; apply in_app_iff; right; left; reflexivity).
    pose proof (C08_inject_extract ops (o' (bg_run ops)) Hw Hr (Ho o' Hm)) as R.
    destruct (bg_inject (bg_run ops) (o' (bg_run ops))) as [h'|]; [|destruct (Hne R)].
    exists h'. split; [crs; reflexivity|exact R]. }
  set (c' := request ms cx c) in *. clearbody c'.
  assert (forall r cx1, (exists o, r = MBaggage o) \/ bg_map (cx_baggage cx1) = bg_map (bg_run ops) ->
    bg_map (cx_baggage (pr_extract (member_prop r) cx1 c')) = bg_map (bg_run ops)) as Hone.
  { intros r cx1 H. destruct r as [|e|o|o]; cbn [member_prop].
    - destruct H as [[o H]|H]; [discriminate|]. rewrite (SW baggage cx1 c'). destruct (w3c_extract_span_context c'); exact H.
    - destruct H as [[o H]|H]; [discriminate|]. rewrite (SB baggage e cx1 c'). destruct (b3_extract_sc e c'); exact H.
    - destruct H as [[? H]|H]; [discriminate|]. rewrite (SJ baggage jaeger_new o cx1 c'). destruct (jg_extract_sc _ _ c'); exact H.
    - cbn [pr_extract bg_propagator]. rewrite Hh. cbn [bg_extract_with_context]. rewrite C07_with_baggage. exact Eh. }
  assert (forall l cx1, bg_map (cx_baggage cx1) = bg_map (bg_run ops) -> bg_map (cx_baggage (received l cx1 c')) = bg_map (bg_run ops)) as Hrest.
  { induction l as [|r l IH]; intros cx1 H; [exact H|]. apply (IH (pr_extract (member_prop r) cx1 c')). apply Hone. right; exact H. }
  apply in_split in Hin as (l1 & l2 & ->).
  assert (received (l1 ++ MBaggage o'' :: l2) cx0 c' = received l2 (pr_extract (bg_propagator o'') (received l1 cx0 c') c') c') as ->.
  { unfold received. cbn [pr_extract composite]. unfold comp_extract. rewrite map_app, fold_left_app. reflexivity. }
  apply Hrest. apply (Hone (MBaggage o'')). left. exists o''. reflexivity.
Qed.
Print Assumptions C173_baggage_beside_the_trace.

Example C173_baggage_nonvacuous :
  let b := [BInsert (of_string "user") (of_string "a, b") []] in
  let cx := cx_with_baggage (cx_with_span (mk_sc 7 8 1 false None) cx_new) (bg_run b) in
  let o := fun b : baggage => map_to_list (bg_map b) in
  Forall (fun o => op_wf o = true) b /\ bg_map (bg_run b) <> ∅ /\
  bg_get (cx_baggage (received [MW3C; MBaggage o] cx_new (request [MBaggage o; MB3 SingleHeader] cx ∅))) (of_string "user")
    = Some (of_string "a, b").
Proof.
  cbv zeta. split; [repeat constructor|]. split; [|vm_compute; reflexivity].
  intros E. apply (f_equal (fun m => m !! of_string "user")) in E. vm_compute in E. discriminate E.
Qed.

(** How the context of a new span comes by its parent [p]: it holds [p], or it was
    received with a request made from such a context; services in between need not
    make spans of their own, and values may be added to contexts. *)
Inductive handed (p : span_context) : context span_context baggage -> Prop :=
| h_here : forall cx, cx_span cx = Some p -> handed p cx
| h_request : forall ms rs cx cx0 c, handed p cx -> fresh c -> Forall member_ok rs ->
    (exists m r, In m ms /\ In r rs /\ speak m r) -> handed p (received rs cx0 (request ms cx c))
| h_values : forall cx cx', handed p cx -> cx_span cx' = cx_span cx -> handed p cx'.

Theorem C173_any_number_of_requests : forall p cx, handed p cx -> plain p ->
  exists sc, cx_span cx = Some sc /\ same_trace p sc /\ plain sc.
Proof.
  intros p cx H Hp. induction H as [cx E|ms rs cx cx0 c _ IH Hf Hok Hs|cx cx' _ IH E].
  - exists p. split; [exact E|]. split; [repeat split|exact Hp].
  - destruct IH as (sc & E & (T1 & T2 & T3) & P).
    assert (cx_span_context cx = sc) as Ec by (unfold cx_span_context; rewrite E; reflexivity).
    destruct (C173_one_request ms rs cx cx0 c) as (sc' & E' & (U1 & U2 & U3) & _ & P'); try assumption; [rewrite Ec; exact P|].
    rewrite Ec in *. exists sc'. split; [exact E'|]. split; [|exact P']. split; [congruence|split; congruence].
  - destruct IH as (sc & Ex & R). exists sc. split; [rewrite E; exact Ex|exact R].
Qed.
Print Assumptions C173_any_number_of_requests.

(** Trees of spans: below the span [root], by the tracers of any number of live
    providers (any limits, ids, clocks and processors), with ParentBased samplers
    around any delegates; [tree root s p]: [s] is a span of it, its parent is [p]. *)
Section tree.
Context {A : Type}.
Definition keeps_state (sample : sctx baggage -> N -> builder A -> decision * list A * tstate) : Prop :=
  forall p t b, ts_reach (sc_state (cx_span_context p)) -> ts_reach (snd (sample p t b)).
Definition ids_ok (b : builder A) (gs : N) : Prop :=
  let i := match sb_span_id b with Some i => i | None => gs end in i <> 0 /\ i < 2 ^ 64.
Inductive tree (root : span_context) : span A -> span_context -> Prop :=
| t_child : forall p l sample gt gs now on_start (b : builder A) parent,
    p = root \/ (exists s q, tree root s q /\ p = sp_ctx s) ->
    handed p parent -> cx_suppress parent = false ->
    parent_based sample -> keeps_state sample -> sb_sampling b = None -> ids_ok b gs ->
    tree root (start_span l false sample gt gs now on_start b parent) p.

Theorem C173_tree_across_services : forall root s p, plain root -> tree root s p ->
  sc_trace (sp_ctx s) = sc_trace root /\
  sampled (sp_ctx s) = sampled root /\ is_recording s = sampled root /\
  (forall d, sp_data s = Some d -> sd_parent d = sc_span p) /\
  plain (sp_ctx s).
Proof.
  intros root s p Hroot. revert s p. fix IH 3. intros s p H.
  destruct H as [p l sample gt gs now on_start b parent Hp Hh Hsup Hpb Hks Hb Hids].
  assert (Hpp : sc_trace p = sc_trace root /\ sampled p = sampled root /\ plain p).
  { destruct Hp as [->|(s' & q & Hs' & ->)]; [auto|].
    destruct (IH s' q Hs') as (H1 & H2 & _ & _ & H5). auto. }
  clear IH Hp. destruct Hpp as (P1 & P2 & P3).
  destruct (C173_any_number_of_requests p parent Hh P3) as (sc & Ecx & (T1 & T2 & T3) & Hplain).
  pose proof (created_identity l sample gt gs now on_start b parent Hsup) as H. rewrite Ecx in H. cbv zeta in H.
  set (s := start_span l false sample gt gs now on_start b parent) in *.
  pose proof (C28_sampling_result A baggage l sample gt gs now on_start b parent) as R.
  unfold sampling in H, R. rewrite Hb in H, R.
  destruct (sample parent (sc_trace sc) b) as [[dec extra] st] eqn:Es.
  destruct H as (I1 & I2 & I3 & I4 & I5 & I6).
  specialize (R dec extra st Hsup). cbv zeta in R. fold s in R. rewrite I1 in R. destruct (R Es) as (R1 & R2 & _).
  clear R. destruct Hpb as [d Hdec]. specialize (Hdec parent (sc_trace sc) b). rewrite Es in Hdec. cbn [fst] in Hdec.
  assert (Esc : cx_span_context parent = sc) by (unfold cx_span_context; rewrite Ecx; reflexivity).
  assert (Hdec' : dec = if sampled sc then RecordAndSample else Drop).
  { rewrite Hdec. cbn [decide]. unfold has_active_span. rewrite Ecx. cbv iota. rewrite Esc.
    unfold sc_is_sampled, sampled. destruct (PropProofs.has_flag_bits (sc_flags sc)) as (_ & _ & ->). reflexivity. }
  assert (Hsp : sampled sc = sampled root) by (unfold sampled in *; rewrite T3; exact P2).
  rewrite Hdec', Hsp in R1, R2.
  split; [congruence|]. split; [|split; [|split]].
  - destruct (sampled root); [apply R1; reflexivity|]. destruct (sampled (sp_ctx s)); [|reflexivity]. discriminate (proj1 R1 eq_refl).
  - destruct (sampled root); [apply R2; discriminate|]. destruct (is_recording s); [|reflexivity]. destruct (proj1 R2 eq_refl); reflexivity.
  - intros dd E. rewrite E in I6. rewrite (proj2 I6). exact T2.
  - destruct Hplain as (Q1 & Q2 & Q3 & Q4). destruct Hids as [J1 J2].
    destruct (typed_bounds sc Q1) as [B1 _]. apply valid_ne in Q2 as [V1 _].
    assert (sc_flags (sp_ctx s) = 0 \/ sc_flags (sp_ctx s) = 1) as Hfl.
    { rewrite I5, Esc. destruct dec; [left; reflexivity| |]; destruct Q3 as [-> | ->]; cbn; auto. }
    split; [|split; [|split; [exact Hfl|]]].
    + unfold sc_typed. rewrite !andb_true_iff, !N.ltb_lt, I1, I2. split; [split; [exact B1|exact J2]|].
      destruct Hfl as [-> | ->]; lia.
    + apply valid_ne. rewrite I1, I2. split; [exact V1|exact J1].
    + rewrite I4. specialize (Hks parent (sc_trace sc) b). rewrite Es, Esc in Hks. apply Hks, Q4.
Qed.
End tree.
Print Assumptions C173_tree_across_services.

(** Three services: the first speaks W3C and B3 (one header), the second reads B3
    (several headers) and writes Jaeger and baggage, the third reads Jaeger. *)
Definition ex_svc_sample : sctx baggage -> N -> builder N -> decision * list N * tstate :=
  fun p t b => (decide (ParentBased AlwaysOff) (Some p) t b, [], sampled_state (Some p)).
Definition ex_trace_root : span_context := mk_sc 0x4bf92f3577b34da6a3ce929d0e0e4736 7 1 false None.
Definition ex_keys : carrier -> list str := fun c => map fst (map_to_list c).
Definition ex_svc_builder : builder N := mk_builder None None None (of_string "op") None None None None None Unset None.
Definition ex_request : carrier := {[ of_string "content-type" := of_string "text/plain" ]}.
Definition ex_cx1 : context span_context baggage := cx_with_span ex_trace_root cx_new.
Definition ex_cx2 := received [MB3 MultipleHeader; MW3C] cx_new (request [MW3C; MB3 SingleHeader] ex_cx1 ex_request).
Definition ex_span2 : span N := start_span ex_limits false ex_svc_sample 0 8 0%Z [] ex_svc_builder ex_cx2.
Definition ex_cx3 := received [MJaeger ex_keys] cx_new
  (request [MJaeger ex_keys; MBaggage (fun _ => [])] (cx_with_span (sp_ctx ex_span2) cx_new) ∅).
Definition ex_span3 : span N := start_span ex_limits false ex_svc_sample 0 9 0%Z [] ex_svc_builder ex_cx3.

Lemma ex_keys_ok ord : ord = ex_keys -> member_ok (MJaeger ord).
Proof.
  intros -> c k Hk. unfold ex_keys in Hk. apply in_map_iff in Hk as ((k' & v) & <- & Hk).
  apply elem_of_list_In, elem_of_map_to_list in Hk. cbn [fst]. rewrite Hk. discriminate.
Qed.

Example C173_nonvacuous :
  plain ex_trace_root /\ fresh ex_request /\
  tree ex_trace_root ex_span3 (sp_ctx ex_span2) /\
  sp_ctx ex_span3 = mk_sc 0x4bf92f3577b34da6a3ce929d0e0e4736 9 1 false None /\
  option_map sd_parent (sp_data ex_span3) = Some 8 /\
  cx_span (received [MJaeger ex_keys] cx_new (request [MW3C] ex_cx1 ∅)) = None.
Proof.
  assert (plain ex_trace_root) as Hp by (repeat split; [right; reflexivity|constructor]).
  assert (fresh ex_request) as Hf.
  { split; intros k Hk; apply lookup_singleton_ne; intros <-; vm_compute in Hk; [|discriminate Hk].
    repeat destruct Hk as [Hk|Hk]; discriminate || exact Hk. }
  assert (fresh ∅) as He by (split; intros k Hk; apply lookup_empty).
  assert (parent_based ex_svc_sample) as Hpb by (exists AlwaysOff; reflexivity).
  assert (keeps_state ex_svc_sample) as Hks by (intros p t b H; exact H).
  split; [exact Hp|]. split; [exact Hf|]. split; [|split; [vm_compute; reflexivity|split; vm_compute; reflexivity]].
  apply t_child; try assumption; try reflexivity; [| |split; [discriminate|reflexivity]].
  - right. exists ex_span2, ex_trace_root. split; [|reflexivity].
    apply t_child; try assumption; try reflexivity; [left; reflexivity| |split; [discriminate|reflexivity]].
    apply h_request; [apply h_here; reflexivity|exact Hf|repeat constructor|].
    exists MW3C, MW3C. cbn; auto.
  - apply h_request; [apply h_here; reflexivity|exact He|constructor; [apply ex_keys_ok; reflexivity|constructor]|].
    exists (MJaeger ex_keys), (MJaeger ex_keys). cbn; auto.
Qed.

(** * C174: the decision is kept whatever the flags *)

(** Refuted: a debug trace (sampled, flags 5, as B3's "x-b3-flags: 1" is read) that
    is sent on with the single B3 header arrives as not sampled; the rest of the
    trace is not recorded. *)
Theorem C174_debug_trace_cut_refuted : exists (root : span_context) (cx : context span_context baggage) (s : span N),
  sc_typed root = true /\ sc_is_valid root = true /\ sampled root = true /\
  b3_extract_sc MultipleHeader {[ B3_TRACE := trace_id_display (sc_trace root); B3_SPAN := span_id_display (sc_span root);
    B3_DEBUG := of_string "1" ]} = Some root /\
  cx = received [MB3 SingleHeader] cx_new (request [MB3 SingleHeader] (cx_with_span root cx_new) ∅) /\
  s = start_span ex_limits false ex_svc_sample 0 8 0%Z [] ex_svc_builder cx /\
  sc_trace (sp_ctx s) = sc_trace root /\ sampled (sp_ctx s) = false /\ is_recording s = false.
Proof.
  exists (mk_sc 0x4bf92f3577b34da6a3ce929d0e0e4736 7 5 true None). eexists. eexists.
  split; [reflexivity|]. split; [reflexivity|]. split; [reflexivity|].
  split; [vm_compute; reflexivity|]. split; [reflexivity|]. split; [reflexivity|].
  split; [vm_compute; reflexivity|]. split; vm_compute; reflexivity.
Qed.
Print Assumptions C174_debug_trace_cut_refuted.
