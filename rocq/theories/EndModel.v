(** The metrics SDK from instrument to export: the pipelines of PipelineModel.v, the
    stores of SeqModel.v and the collection of ProduceModel.v put together
    (opentelemetry-sdk/src/metrics/meter.rs, pipeline.rs, internal/*.rs).

    Simplifications: calls do not overlap (ValueMapModel.v has the interleavings of
    measurements with each other and with a collection); an aggregator is a pair of
    functions [create]/[update] on a state which is also what the point shows (the
    aggregator files model them), with [sub] the difference of two. *)
From Coq Require Import List Bool Arith NArith.
From Verif Require Import Str InstrModel ProviderModel AttrModel ValueMapModel SeqModel PipelineModel ProduceModel.
From Verif Require ObservableModel.
Import ListNotations.

Section endm.
Context {Vl A Nv T R : Type}.
Notation attrs := (list (kv Vl)).
Notation V := (attrs * Nv)%type.
Notation scope := (scope (kv Vl)).
Notation vmap := (ValueMapModel.vmap (KV := kv Vl) (A := A)).
Notation sync := (@sync (kv Vl) V).
Notation mstate := (@PipelineModel.mstate (kv Vl) V).
Variable sc_dec : forall x y : scope, {x = y} + {x <> y}.
Variable keq : forall x y : attrs, {x = y} + {x <> y}.
Variable views : list (instrument (kv Vl) -> option stream).
Variable yes : Vl.
Variable srt : attrs -> attrs.
(** The iteration orders of the two hash maps. *)
Variable ord : tmap (KV := kv Vl) -> list nat.
Variable scope_order : list scope -> list scope.
(** The aggregators for each number type, and the values they take at all (the exponential histogram
    ignores those that are not finite, exponential_histogram.rs:515-521). *)
Variable create : num -> impl -> A.
Variable update : num -> impl -> A -> Nv -> A.
Variable accepts : impl -> Nv -> bool.
(** The differences observable sums report (precomputed_sum.rs:74). *)
Variable sub : num -> A -> A -> A.
(** The temporality preference of each reader, the resource, and
    [InstrumentationScope::default()]. *)
Variable pref : nat -> temporality.
Variable res : R.
Variable empty_scope : scope.

(** What an aggregator holds: [filter], [value_map] with its cardinality limit, and, for
    observable sums, what was [reported] (precomputed_sum.rs:12-19). *)
Record store := SMap { st_num : num; st_impl : impl; st_keys : option (list str); st_limit : nat; st_map : vmap; st_reported : list (attrs * A) }.
(** [allowed.contains(&kv.key)] (pipeline.rs:386-389). *)
Definition keep_of (keys : option (list str)) : option (kv Vl -> bool) :=
  option_map (fun ks (x : kv Vl) => existsb (str_eqb (fst x)) ks) keys.
(** [aggregate_fn] (pipeline.rs:501-563). *)
Definition store_new (u : num) (im : impl) (keys : option (list str)) (limit : N) : store :=
  SMap u im keys (N.to_nat limit) (vm_new (create u im)) [].
(** [Measure::call] (sum.rs:151-155, last_value.rs:140-144, histogram.rs:225-237,
    exponential_histogram.rs:515-526, precomputed_sum.rs:131-135). *)
Definition store_measure (st : store) (v : V) : store :=
  let '(SMap u im keys limit m rep) := st in
  if accepts im (snd v) then
    SMap u im keys limit (measure_now keq (sort_and_dedup srt) (overflow_attrs yes) (keep_of keys) (create u im) (update u im) limit (fst v) (snd v) m) rep
  else st.
Definition store_readonly (st : store) : list (attrs * A) := readonly_now ord (st_map st).
(** Observable sums report the difference to the value reported last (precomputed_sum.rs:62-87). *)
Definition store_reset (st : store) : list (attrs * A) * store :=
  let '(SMap u im keys limit m rep) := st in
  let '(pts, m') := reset_now (create u im) ord m in
  match im with
  | IPre _ => let '(out, rep') := ObservableModel.pre_delta keq (sub u) (create u im) rep pts in (out, SMap u im keys limit m' rep')
  | _ => (pts, SMap u im keys limit m' rep)
  end.

(** The data type each aggregator reports. *)
Definition shape_of (im : impl) : shape :=
  match im with
  | ILast _ => ShGauge
  | ISum mono | IPre mono => ShSum mono
  | IHist _ _ _ => ShHist
  | IExpo _ _ _ _ => ShExpo
  end.
Notation inst := (@inst T store).
(** The InstrumentSync of a new aggregator of reader [r] (pipeline.rs:385-420). *)
Definition new_inst (r : nat) (s : sync) (now : T) : inst :=
  ProduceModel.mk_inst (s_name s) (s_desc s) (s_unit s)
    (mk_aggr (k_num (s_key s)) (shape_of (s_impl s)) (built_temporality (k_kind (s_key s)) (s_impl s) (pref r)) now
       (store_new (k_num (s_key s)) (s_impl s) (s_keys s) (s_limit s))).
Definition inst_measure (i : inst) (x : @source * V) : inst :=
  let a := i_ag i in
  ProduceModel.mk_inst (i_nm i) (i_ds i) (i_un i) (mk_aggr (a_num a) (a_shape a) (a_temp a) (a_init a) (store_measure (a_st a) (snd x))).

(** The aggregators of a pipeline after a step: new ones are built, and each is called
    with the measurements the step brought it ([s_log] records those calls). *)
Definition absorb (r : nat) (clock : nat -> T) (olds news : list sync) (cells : list inst) : list inst :=
  map (fun '(j, s) =>
         fold_left inst_measure (skipn (match nth_error olds j with Some o => length (s_log o) | None => 0 end) (s_log s))
           (match nth_error cells j with Some c => c | None => new_inst r s (clock j) end))
    (combine (seq 0 (length news)) news).

(** [PipelineInner::aggregations]: the aggregators by scope (pipeline.rs:60-82); the
    time is that at which each has its turn. *)
Definition numbered (ss : list sync) (cells : list inst) : list (nat * (sync * inst)) :=
  combine (seq 0 (length ss)) (combine ss cells).
Definition members (clock : nat -> T) (l : list (nat * (sync * inst))) (sc : scope) : list (nat * (inst * T)) :=
  flat_map (fun '(j, (s, c)) => if sc_dec (k_scope (s_key s)) sc then [(j, (c, clock j))] else []) l.
Definition groups (clock : nat -> T) (l : list (nat * (sync * inst))) : list (scope * list (nat * (inst * T))) :=
  map (fun sc => (sc, members clock l sc)) (scope_order (map (fun x => k_scope (s_key (fst (snd x)))) l)).
Fixpoint assoc {X} (j : nat) (l : list (nat * X)) : option X :=
  match l with
  | [] => None
  | (i, x) :: l => if i =? j then Some x else assoc j l
  end.
Definition write_back (gs : list (scope * list (nat * (inst * T)))) (after : list (scope * list inst)) (cells : list inst) : list inst :=
  let tbl := combine (flat_map (fun g => map fst (snd g)) gs) (flat_map snd after) in
  map (fun '(j, c) => match assoc j tbl with Some c' => c' | None => c end) (combine (seq 0 (length cells)) cells).

(** The whole: the pipelines and, for each reader, its aggregators. *)
Record endst := mk_end { e_ms : mstate; e_cells : list (list inst) }.
(** An event of PipelineModel.v with the times read during it and, for a collection,
    the contents of the buffer it is given. *)
Notation rmetrics := (@resource_metrics scope R T (attrs * A)).
Record ev := mk_ev { ev_event : @event (kv Vl) V; ev_clock : nat -> T; ev_buf : rmetrics }.
Definition syncs (r : nat) (ms : mstate) : list sync :=
  match nth_error (ms_pipes ms) r with Some ps => p_syncs (ps_pipe ps) | None => [] end.
Definition estep (s : endst) (e : ev) : endst * option rmetrics :=
  let ms' := mstep sc_dec views (e_ms s) (ev_event e) in
  let cells := map (fun r => absorb r (ev_clock e) (syncs r (e_ms s)) (syncs r ms') (nth r (e_cells s) [])) (seq 0 (length (ms_pipes ms'))) in
  match ev_event e with
  | PipelineModel.Collect r _ =>
      let mine := nth r cells [] in
      let gs := groups (ev_clock e) (numbered (syncs r ms') mine) in
      let '(rm, after) := produce empty_scope store_readonly store_reset res (map (fun g => (fst g, map snd (snd g))) gs) (ev_buf e) in
      (mk_end ms' (set_nth r (write_back gs after mine) cells), Some rm)
  | _ => (mk_end ms' cells, None)
  end.
Definition e_init (readers : nat) : endst := mk_end (m_init readers) (repeat [] readers).
Definition erun (readers : nat) (es : list ev) : endst := fold_left (fun s e => fst (estep s e)) es (e_init readers).
End endm.
