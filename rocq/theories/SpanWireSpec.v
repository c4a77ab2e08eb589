(** What the theorems of SpanWireProps.v refer to: the story of a span, told by the API
    calls made for it, and what a message of an OTLP receiver tells of it. *)
From Coq Require Import String List NArith ZArith Bool.
From Verif Require Import Str ContextModel TraceModel Carrier SamplerModel SpanModel SpanSpec BuilderModel KvModel OtlpModel BuilderProps ProtoSpec ProtoProps.
Import ListNotations.
Local Open Scope N_scope.

(** A span as the application makes it: the tracer (its limits, sampler and scope), what
    the id generator and the clock gave, the name and the calls on the builder, the
    context, and everything that happens to the span afterwards. *)
Record story (V : Type) := mk_story {
  st_limits : limits;
  st_sampler : sctx V -> N -> str -> N -> list attr -> list (link attr) -> decision * list attr * tstate;
  st_scope : KvModel.scope;
  st_gen_trace : N; st_gen_span : N; st_now : Z;
  st_name : str; st_calls : list (bcall attr); st_parent : sctx V;
  st_life : list (action attr) }.
Arguments mk_story {V}. Arguments st_limits {V}. Arguments st_sampler {V}. Arguments st_scope {V}.
Arguments st_gen_trace {V}. Arguments st_gen_span {V}. Arguments st_now {V}. Arguments st_name {V}.
Arguments st_calls {V}. Arguments st_parent {V}. Arguments st_life {V}.

(** What [on_end] of the processor is given (opentelemetry-sdk/src/trace/span.rs:200-269), if
    anything: the model of the builder, the tracer and the span, one after the other. *)
Definition handed {V} (st : story V) : option sdata :=
  let s := b_start_with_context (st_limits st) false (st_sampler st) (st_gen_trace st) (st_gen_span st) (st_now st) []
             (b_build (st_name st) (st_calls st)) (st_parent st) in
  match snd (run_span (KvModel.sc_name (st_scope st)) [tt] false s (st_life st)) with
  | [(_, e)] => Some (mk_sdata (ex_ctx e) (ex_data e) (st_scope st))
  | _ => None
  end.

(** The calls before the first end, and the time it was ended: that given; when the span
    is dropped, the end time given to the builder if it differs from the start, or the
    clock. *)
Fixpoint before_end {A} (l : list (action A)) : list (span_op A) :=
  match l with
  | Op o :: l => o :: before_end l
  | ProviderShutdown :: l => before_end l
  | _ => []
  end.
Fixpoint ended_at {A} (start : Z) (given : option Z) (l : list (action A)) : option Z :=
  match l with
  | End t :: _ => Some t
  | DropSpan now :: _ => Some match given with Some t => if (t =? start)%Z then now else t | None => now end
  | _ :: l => ended_at start given l
  | [] => None
  end.

(** * What is told *)
Inductive conveys : value -> any -> Prop :=
| cv_bool : forall b, conveys (VBool b) (PBool b)
| cv_int : forall z, conveys (VI64 z) (PInt z)
| cv_double : forall f, conveys (VF64 f) (PDouble f)
| cv_string : forall s, conveys (VString s) (PString s)
| cv_bools : forall l, conveys (VArray (ABool l)) (PArray (map PBool l))
| cv_ints : forall l, conveys (VArray (AI64 l)) (PArray (map PInt l))
| cv_doubles : forall l, conveys (VArray (AF64 l)) (PArray (map PDouble l))
| cv_strings : forall l, conveys (VArray (AString l)) (PArray (map PString l)).
Definition attr_told (a : attr) (p : str * any) : Prop := fst p = fst a /\ conveys (snd a) (snd p).
(** Of what was offered the first [limit] are told, in order, and the number of the others. *)
Definition within {X Y} (limit : N) (R : X -> Y -> Prop) (offered : list X) (told : list Y) (dropped : N) : Prop :=
  Forall2 R (firstn (N.to_nat limit) offered) told /\ dropped = (N.of_nat (List.length offered) - limit) mod 2 ^ 32.
(** An id is told as so many bytes, the most significant first. *)
Definition id_told (width : nat) (id : N) (bytes : list N) : Prop :=
  List.length bytes = width /\ Forall (fun b => b < 256) bytes /\ fold_left (fun n b => 256 * n + b) bytes 0 = id.
(** A time is told in nanoseconds since 1970, zero if before. *)
Definition time_told (t told : Z) : Prop := (t < 2 ^ 64 -> told = Z.max 0 t)%Z.
Fixpoint members (l : list (str * str)) : str :=
  match l with
  | [] => []
  | [(k, v)] => k ++ 61 :: v
  | (k, v) :: l => k ++ 61 :: v ++ 44 :: members l
  end.
Definition state_told (t : tstate) (told : str) : Prop := told = match t with Some l => members l | None => [] end.
Definition event_told (limit : N) (e : str * Z * list attr) (p : pevent) : Prop :=
  let '(name, t, attrs) := e in
  pe_name p = name /\ time_told t (pe_time p) /\ within limit attr_told attrs (pe_attrs p) (pe_dropped p).
Definition link_told (limit : N) (k : span_context * list attr) (p : plink) : Prop :=
  let '(sc, attrs) := k in
  id_told 16 (sc_trace sc) (pl_trace p) /\ id_told 8 (sc_span sc) (pl_span p) /\ state_told (TraceModel.sc_state sc) (pl_state p) /\
  pl_flags p = sc_flags sc /\ within limit attr_told attrs (pl_attrs p) (pl_dropped p).
Definition status_told (s : status) (code : Z) (message : str) : Prop :=
  match s with Unset => code = 0%Z /\ message = [] | StatusOk => code = 1%Z /\ message = [] | Error d => code = 2%Z /\ message = d end.
(** The numbers of the kinds in trace.proto; the SDK's are by position: Client, Server,
    Producer, Consumer, Internal. *)
Definition kind_told (k : N) (told : Z) : Prop := nth_error [3; 2; 4; 5; 1]%Z (N.to_nat k) = Some told.

Section tells.
Context {V : Type} (st : story V).
Definition st_trace : N := trace_of (st_gen_trace st) (st_calls st) (st_parent st).
Definition st_id : N := or (st_gen_span st) (last_given g_span (st_calls st)).
Definition st_result : decision * list attr * tstate :=
  result_of (st_sampler st) (st_gen_trace st) (st_name st) (st_calls st) (st_parent st).
Definition st_start : Z := or (st_now st) (last_given g_start (st_calls st)).
Definition st_ops : list (span_op attr) := before_end (st_life st).
Definition all_attrs : list attr :=
  or [] (last_given g_attrs (st_calls st)) ++ snd (fst st_result) ++ flat_map offered_attrs st_ops.
Definition all_events : list (str * Z * list attr) :=
  map (fun e => (ev_name e, ev_time e, ev_attrs e)) (or [] (last_given g_events (st_calls st))) ++ flat_map offered_events st_ops.
Definition all_links : list (span_context * list attr) :=
  map (fun k => (ln_sc k, ln_attrs k)) (links_asked (st_calls st)) ++ flat_map offered_links st_ops.
Definition all_statuses : list status := or Unset (last_given g_status (st_calls st)) :: flat_map offered_status st_ops.

(** The message [p] tells the story. *)
Definition tells (p : pspan) : Prop :=
  id_told 16 st_trace (p_trace p) /\ id_told 8 st_id (p_span p) /\
  match cx_span (st_parent st) with
  | Some psc => if sc_span psc =? 0 then p_parent p = [] else id_told 8 (sc_span psc) (p_parent p)
  | None => p_parent p = []
  end /\
  state_told (snd st_result) (p_state p) /\
  (N.testbit (p_flags p) 0 = true <-> fst (fst st_result) = RecordAndSample) /\
  (forall i, 0 < i -> N.testbit (p_flags p) i = N.testbit (sc_flags (cx_span_context (st_parent st))) i) /\
  p_name p = last (flat_map offered_names st_ops) (st_name st) /\
  kind_told (or INTERNAL (last_given g_kind (st_calls st))) (p_kind p) /\
  time_told st_start (p_start p) /\
  (exists t, ended_at st_start (last_given g_end (st_calls st)) (st_life st) = Some t /\ time_told t (p_end p)) /\
  within (max_attrs (st_limits st)) attr_told all_attrs (p_attrs p) (p_attrs_dropped p) /\
  within (max_events (st_limits st)) (event_told (max_event_attrs (st_limits st))) all_events (p_events p) (p_events_dropped p) /\
  within (max_links (st_limits st)) (link_told (max_link_attrs (st_limits st))) all_links (p_links p) (p_links_dropped p) /\
  exists s, In s all_statuses /\ (forall x, In x all_statuses -> weaker x s) /\ status_told s (p_code p) (p_message p).

(** The types of the API: strings are Unicode text, ids and flags have their widths, kinds
    are the five there are. *)
Definition typed_context (sc : span_context) : Prop :=
  sc_trace sc < 2 ^ 128 /\ sc_span sc < 2 ^ 64 /\ sc_flags sc < 256 /\ typed_state (TraceModel.sc_state sc).
Definition typed_story : Prop :=
  st_trace < 2 ^ 128 /\ st_id < 2 ^ 64 /\
  match cx_span (st_parent st) with Some psc => typed_context psc | None => True end /\
  typed_state (snd st_result) /\ text (st_name st) /\ Forall text (flat_map offered_names st_ops) /\
  or INTERNAL (last_given g_kind (st_calls st)) < 5 /\
  Forall typed_attr all_attrs /\
  Forall (fun e => text (fst (fst e)) /\ Forall typed_attr (snd e)) all_events /\
  Forall (fun k => typed_context (fst k) /\ Forall typed_attr (snd k)) all_links /\
  Forall typed_status all_statuses /\ typed_scope (st_scope st).
End tells.
