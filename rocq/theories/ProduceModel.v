(** One collection of a pipeline into a buffer the caller may reuse
    (opentelemetry-sdk/src/metrics/pipeline.rs:102-173,
    opentelemetry-sdk/src/metrics/internal/{sum,precomputed_sum,last_value,histogram,
    exponential_histogram}.rs: [delta], [cumulative], [ComputeAggregation::call],
    opentelemetry-sdk/src/metrics/internal/aggregate.rs:53-90,
    opentelemetry-sdk/src/metrics/instrument.rs:43-66).

    Simplifications: the value map of an aggregator is a state [St] with functions
    [readonly] and [reset] that return the data points (they are modelled in
    ValueMapModel.v and the aggregator files); the clock is an input; lock poisoning is
    left out; [HashMap] iteration order is the order of the given list; capacity
    reservations are left out. *)
From Coq Require Import List Bool Arith NArith.
From Verif Require Import Str InstrModel PipelineModel ProviderModel.
Import ListNotations.

(** [Temporality] (opentelemetry-sdk/src/metrics/mod.rs). *)
Inductive temporality := Cumulative | Delta | LowMemory.

(** [InstrumentKind::temporality_preference] (instrument.rs:43-66). *)
Definition temporality_preference (k : kind) (t : temporality) : temporality :=
  match t with
  | Cumulative => Cumulative
  | Delta => match k with KUpDown | KObsUpDown => Cumulative | _ => Delta end
  | LowMemory => match k with KCounter | KHistogram => Delta | _ => Cumulative end
  end.
(** The temporality an aggregator is built with: [cached_aggregator] passes
    [reader.temporality(kind)] to the builder (pipeline.rs:386-391), [aggregate_fn]
    overrides it with delta for the last value of an observable gauge
    (pipeline.rs:512-515). *)
Definition built_temporality (k : kind) (im : impl) (pref : temporality) : temporality :=
  match im with
  | ILast true => Delta
  | _ => temporality_preference k pref
  end.

Section produce.
Context {Sc R T P St : Type} (empty_scope : Sc).
(** [ValueMap::collect_readonly] and [collect_and_reset] with the aggregator's point
    constructor. *)
Context (readonly : St -> list P) (reset : St -> list P * St).

(** The [data::{Gauge,Sum,Histogram,ExponentialHistogram}] records (data/mod.rs). *)
Record gauge := mk_gauge { g_points : list P; g_start : option T; g_time : T }.
Record sum := mk_sum { s_points : list P; s_start : T; s_time : T; s_temp : temporality; s_mono : bool }.
Record hist := mk_hist { h_points : list P; h_start : T; h_time : T; h_temp : temporality }.
(** [MetricData<T>] and [AggregatedMetrics], the latter as a pair with the number type. *)
Inductive mdata := MGauge (g : gauge) | MSum (s : sum) | MHist (h : hist) | MExpo (h : hist).
Definition amdata : Type := num * mdata.

(** An aggregator: which kind, its temporality, its [AggregateTimeInitiator] and its
    value map. *)
Inductive shape := ShGauge | ShSum (mono : bool) | ShHist | ShExpo.
Record aggr := mk_aggr { a_num : num; a_shape : shape; a_temp : temporality; a_init : T; a_st : St }.

(** [AggregateTimeInitiator::delta], [cumulative] (aggregate.rs:62-82): the start time
    reported, and the stored time afterwards. *)
Definition init_delta (init now : T) : T * T := (init, now).
Definition init_cumulative (init now : T) : T * T := (init, init).

(** [prepare_data] clears the destination before pushing (internal/mod.rs:214-220). *)
Definition refill (dest pts : list P) : list P := (fun _ => []) dest ++ pts.

(** The common body of [delta] and [cumulative]: [temp] is the temporality written,
    [start]/[now] the window, [pts] what the value map yields.  [dest] is the buffer's
    data after [extract_metrics_data_mut].  The result is the number of points, the
    newly allocated data if the buffer's was unusable, and the buffer's data after the
    call. *)
Definition fill (sh : shape) (temp : temporality) (start now : T) (pts : list P) (dest : option mdata)
    : nat * option mdata * option mdata :=
  match sh with
  | ShGauge =>
      let upd g := mk_gauge (refill (g_points g) pts) (Some start) now in
      match dest with
      | Some (MGauge g) => let g := upd g in (length (g_points g), None, Some (MGauge g))
      | _ => let g := upd (mk_gauge [] (Some start) now) in (length (g_points g), Some (MGauge g), dest)
      end
  | ShSum mono =>
      let upd s := mk_sum (refill (s_points s) pts) start now temp mono in
      match dest with
      | Some (MSum s) => let s := upd s in (length (s_points s), None, Some (MSum s))
      | _ => let s := upd (mk_sum [] start now temp mono) in (length (s_points s), Some (MSum s), dest)
      end
  | ShHist =>
      let upd h := mk_hist (refill (h_points h) pts) start now temp in
      match dest with
      | Some (MHist h) => let h := upd h in (length (h_points h), None, Some (MHist h))
      | _ => let h := upd (mk_hist [] start now temp) in (length (h_points h), Some (MHist h), dest)
      end
  | ShExpo =>
      let upd h := mk_hist (refill (h_points h) pts) start now temp in
      match dest with
      | Some (MExpo h) => let h := upd h in (length (h_points h), None, Some (MExpo h))
      | _ => let h := upd (mk_hist [] start now temp) in (length (h_points h), Some (MExpo h), dest)
      end
  end.

(** [ComputeAggregation::call]: [Delta => self.delta(data), _ => self.cumulative(data)]
    (sum.rs:162-170 and the same in the other files). *)
Definition call (a : aggr) (now : T) (dest : option amdata) : nat * option amdata * option amdata * aggr :=
  let mine := match dest with Some (n, d) => if num_eq_dec n (a_num a) then Some d else None | None => None end in
  let '(temp, (start, init'), (pts, st')) :=
    match a_temp a with
    | Delta => (Delta, init_delta (a_init a) now, reset (a_st a))
    | _ => (Cumulative, init_cumulative (a_init a) now, (readonly (a_st a), a_st a))
    end in
  let '(len, new, mine') := fill (a_shape a) temp start now pts mine in
  (len, option_map (pair (a_num a)) new,
   match mine' with Some d => Some (a_num a, d) | None => dest end,
   mk_aggr (a_num a) (a_shape a) (a_temp a) init' st').

(** [InstrumentSync] (pipeline.rs:176-185), [Metric], [ScopeMetrics],
    [ResourceMetrics] (data/mod.rs:12-41). *)
Record inst := mk_inst { i_nm : str; i_ds : str; i_un : str; i_ag : aggr }.
Record metric := mk_metric { m_name : str; m_desc : str; m_unit : str; m_data : amdata }.
Record scope_metrics := mk_sm { sm_scope : Sc; sm_metrics : list metric }.
Record resource_metrics := mk_rm { rm_resource : R; rm_scopes : list scope_metrics }.

(** The body of the inner loop of [produce] (pipeline.rs:134-162): the metrics vector,
    the index [j], one instrument and the time its turn comes. *)
Definition inst_step (ms : list metric) (j : nat) (i : inst) (now : T) : list metric * nat * inst :=
  let m := nth_error ms j in
  let '(len, new, dest', a') := call (i_ag i) now (option_map m_data m) in
  let i' := mk_inst (i_nm i) (i_ds i) (i_un i) a' in
  (* the call may have updated the buffer in place *)
  let m := match m, dest' with Some m, Some d => Some (mk_metric (m_name m) (m_desc m) (m_unit m) d) | m, _ => m end in
  let ms := match m with Some m => set_nth j m ms | None => ms end in
  match m, new with
  | None, Some d => if 0 <? len then (ms ++ [mk_metric (i_nm i) (i_ds i) (i_un i) d], S j, i') else (ms, j, i')
  | Some prev, data =>
      if 0 <? len then
        let d := match data with Some d => d | None => m_data prev end in
        (set_nth j (mk_metric (i_nm i) (i_ds i) (i_un i) d) ms, S j, i')
      else (ms, j, i')
  | None, None => (ms, j, i')
  end.
Fixpoint inst_loop (ms : list metric) (j : nat) (is : list (inst * T)) : list metric * nat * list inst :=
  match is with
  | [] => (ms, j, [])
  | (i, now) :: is =>
      let '(ms, j, i') := inst_step ms j i now in
      let '(ms, j, is') := inst_loop ms j is in
      (ms, j, i' :: is')
  end.
(** The outer loop (pipeline.rs:120-170). *)
Definition scope_step (sms : list scope_metrics) (i : nat) (sc : Sc) (is : list (inst * T))
    : list scope_metrics * nat * list inst :=
  let '(sm, sms) := match nth_error sms i with
                    | Some sm => (sm, sms)
                    | None => let sm := mk_sm empty_scope [] in (sm, sms ++ [sm])
                    end in
  let '(ms, j, is') := inst_loop (sm_metrics sm) 0 is in
  let ms := firstn j ms in
  match ms with
  | [] => (set_nth i (mk_sm (sm_scope sm) ms) sms, i, is')
  | _ => (set_nth i (mk_sm sc ms) sms, S i, is')
  end.
Fixpoint scope_loop (sms : list scope_metrics) (i : nat) (aggs : list (Sc * list (inst * T)))
    : list scope_metrics * nat * list (Sc * list inst) :=
  match aggs with
  | [] => (sms, i, [])
  | (sc, is) :: aggs =>
      let '(sms, i, is') := scope_step sms i sc is in
      let '(sms, i, aggs') := scope_loop sms i aggs in
      (sms, i, (sc, is') :: aggs')
  end.
(** [produce] after the callbacks ran. *)
Definition produce (res : R) (aggs : list (Sc * list (inst * T))) (rm : resource_metrics)
    : resource_metrics * list (Sc * list inst) :=
  let '(sms, i, aggs') := scope_loop (rm_scopes rm) 0 aggs in
  (mk_rm res (firstn i sms), aggs').
End produce.
