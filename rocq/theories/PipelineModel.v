(** Instrument creation and the resolution of measurements to aggregators
    (opentelemetry-sdk/src/metrics/pipeline.rs:60-82, 187-427, 467-629, 636-750,
    opentelemetry-sdk/src/metrics/meter.rs:72-447, 643-692,
    opentelemetry-sdk/src/metrics/instrument.rs:252-330). *)
From Coq Require Import List Bool Arith NArith ZArith.
From Verif Require Import Str F64 InstrModel ProviderModel.
Import ListNotations.

(** The number type of an instrument. *)
Inductive num := U64 | I64 | F64n.
Definition num_eq_dec : forall x y : num, {x = y} + {x <> y}. decide equality. Defined.

(** [default_aggregation_selector] (pipeline.rs:477-496). *)
Definition default_bounds : list f64 := map f64_of_Z [0; 5; 10; 25; 50; 75; 100; 250; 500; 750; 1000; 2500; 5000; 7500; 10000]%Z.
Definition default_agg (k : kind) : agg :=
  match k with
  | KCounter | KUpDown | KObsCounter | KObsUpDown => ASum
  | KGauge | KObsGauge => ALastValue
  | KHistogram => AExplicit default_bounds true
  end.
(** The first lines of [cached_aggregator] (pipeline.rs:356-364). *)
Definition effective (k : kind) (a : option agg) : agg :=
  match a with
  | None => default_agg k
  | Some ADefault => default_agg k
  | Some a => a
  end.
(** [is_aggregator_compatible] (pipeline.rs:578-629). *)
Definition compatible (k : kind) (a : agg) : bool :=
  match a with
  | ADefault | ADrop | AExplicit _ _ | AExpo _ _ _ => true
  | ASum => match k with KGauge | KObsGauge => false | _ => true end
  | ALastValue => match k with KGauge | KObsGauge => true | _ => false end
  end.
(** [aggregate_fn] (pipeline.rs:501-563): which aggregator is built.  [ILast d]:
    forced delta temporality; [ISum]/[IPre]: monotonic; histograms: record_min_max
    and record_sum. *)
Inductive impl :=
| ILast (forced_delta : bool) | ISum (mono : bool) | IPre (mono : bool)
| IHist (bounds : list f64) (mm rs : bool) | IExpo (size : N) (scale : Z) (mm rs : bool).
Definition record_sum (k : kind) : bool := match k with KUpDown | KObsUpDown | KObsGauge => false | _ => true end.
Inductive result (X : Type) := Ok (x : X) | Err.
Arguments Ok {X} x. Arguments Err {X}.
Definition aggregate_fn (a : agg) (k : kind) : result (option impl) :=
  match (match a with ADefault => default_agg k | a => a end) with
  | ADefault | ADrop => Ok None
  | ALastValue => match k with KGauge => Ok (Some (ILast false)) | KObsGauge => Ok (Some (ILast true)) | _ => Err end
  | ASum => Ok (Some match k with
                     | KObsCounter => IPre true
                     | KObsUpDown => IPre false
                     | KCounter | KHistogram => ISum true
                     | _ => ISum false
                     end)
  | AExplicit b mm => Ok (Some (IHist b mm (record_sum k)))
  | AExpo n sc mm => Ok (Some (IExpo n sc mm (record_sum k)))
  end.

Definition is_obs (k : kind) : bool := match k with KObsCounter | KObsUpDown | KObsGauge => true | _ => false end.

Section pipeline.
Context {KV V : Type}.
(** Scopes are compared as HashMap keys; here by Leibniz equality (see the
    Eq/Hash model for the code's comparison). *)
Variable sc_dec : forall x y : scope KV, {x = y} + {x <> y}.
(** [View] is a public trait: any function from instruments to streams. *)
Variable views : list (instrument KV -> option (stream)).

(** InstrumentId (instrument.rs:252-262), with the scope: each meter and number
    type has its own cache (meter.rs:60-70; meters are unique per scope,
    meter_provider.rs:196-227); the model has one cache per pipeline whose keys
    also hold the scope. *)
Record key := mk_key { k_scope : scope KV; k_num : num; k_kind : kind; k_name : str; k_desc : str; k_unit : str }.
Definition key_dec : forall x y : key, {x = y} + {x <> y}.
Proof.
  assert (S : forall x y : str, {x = y} + {x <> y}) by (apply list_eq_dec; apply N.eq_dec).
  pose proof num_eq_dec. pose proof kind_eq_dec. pose proof sc_dec. decide equality.
Defined.
(** [normalize] (instrument.rs:264-277) and [inst_id] (pipeline.rs:454-463). *)
Definition normalize (k : key) : key :=
  mk_key (k_scope k) (k_num k) (k_kind k) (to_lower (k_name k)) (k_desc k) (k_unit k).
Definition inst_id (sc : scope KV) (n : num) (k : kind) (s : stream) : key :=
  mk_key sc n k (st_name s) (st_desc s) (st_unit s).

(** Where a recorded value came from: a direct call, or a callback run during the
    collection by the given reader. *)
Inductive source := Direct | During (reader : nat).
(** InstrumentSync with its aggregator (pipeline.rs:176-182); [s_log] is the
    ghost sequence of [measure] calls the aggregator received. *)
Record sync := mk_sync { s_key : key; s_name : str; s_desc : str; s_unit : str; s_impl : impl;
                         s_keys : option (list str); s_limit : N; s_log : list (source * V) }.
(** One reader's pipeline: aggregators in creation order (their index is their
    address) and the cache of [Inserter]. *)
Record pipe := mk_pipe { p_syncs : list sync; p_cache : list (key * result (option nat)) }.
Fixpoint find_cache (k : key) (c : list (key * result (option nat))) : option (result (option nat)) :=
  match c with
  | [] => None
  | (k', r) :: c => if key_dec k' k then Some r else find_cache k c
  end.

(** [cached_aggregator] (pipeline.rs:350-427). *)
Definition default_limit : N := 2000.
Definition cached_aggregator (sc : scope KV) (n : num) (k : kind) (s : stream) (p : pipe) : pipe * result (option nat) :=
  let a := effective k (st_agg s) in
  if compatible k a then
    let id := normalize (inst_id sc n k s) in
    match find_cache id (p_cache p) with
    | Some r => (p, r)
    | None =>
      match aggregate_fn a k with
      | Ok (Some i) =>
        let r := Ok (Some (length (p_syncs p))) in
        (mk_pipe (p_syncs p ++ [mk_sync id (st_name s) (st_desc s) (st_unit s) i (st_keys s)
                                  (match st_limit s with Some l => l | None => default_limit end) []])
           (p_cache p ++ [(id, r)]), r)
      | Ok None => (mk_pipe (p_syncs p) (p_cache p ++ [(id, Ok None)]), Ok None)
      | Err => (mk_pipe (p_syncs p) (p_cache p ++ [(id, Err)]), Err)
      end
    end
  else (p, Err).

(** The loop over views in [Inserter::instrument] (pipeline.rs:255-282): matched,
    seen ids, measures and whether an error was collected. *)
Fixpoint view_loop (inst : instrument KV) (n : num) (k : kind) (vs : list (instrument KV -> option stream))
    (p : pipe) (matched : bool) (seen : list key) (ms : list nat) (err : bool) : pipe * bool * list nat * bool :=
  match vs with
  | [] => (p, matched, ms, err)
  | v :: vs =>
    match v inst with
    | None => view_loop inst n k vs p matched seen ms err
    | Some s =>
      let id := inst_id (i_scope inst) n k s in
      if in_dec key_dec id seen then view_loop inst n k vs p true seen ms err
      else
        match cached_aggregator (i_scope inst) n k s p with
        | (p', Ok (Some i)) => view_loop inst n k vs p' true (id :: seen) (ms ++ [i]) err
        | (p', Ok None) => view_loop inst n k vs p' true seen ms err
        | (p', Err) => view_loop inst n k vs p' true seen ms true
        end
    end
  end.
(** The stream of the implicit default view (pipeline.rs:292-309). *)
Definition default_stream (inst : instrument KV) (bounds : option (list f64)) (limit : option N) : stream :=
  mk_stream (i_name inst) (i_desc inst) (i_unit inst)
    (match bounds with Some b => Some (AExplicit b true) | None => None end) None limit.
(** [Inserter::instrument] (pipeline.rs:237-332). *)
Definition inserter_instrument (inst : instrument KV) (n : num) (k : kind) (bounds : option (list f64)) (limit : option N)
    (p : pipe) : pipe * result (list nat) :=
  let '(p', matched, ms, err) := view_loop inst n k views p false [] [] false in
  if matched then (p', if err then Err else Ok ms)
  else
    match cached_aggregator (i_scope inst) n k (default_stream inst bounds limit) p' with
    | (p'', Ok (Some i)) => (p'', Ok (ms ++ [i]))
    | (p'', Ok None) => (p'', Ok ms)
    | (p'', Err) => (p'', Err)
    end.

(** What the application passes to an instrument builder. *)
Record args := mk_args { a_scope : scope KV; a_num : num; a_kind : kind; a_name : str; a_desc : option str;
                         a_unit : option str; a_bounds : option (list f64); a_limit : option N; a_callbacks : nat }.
Definition or_default (o : option str) : str := match o with Some s => s | None => [] end.
(** InstrumentResolver::measures (meter.rs:673-691); only histograms pass boundaries. *)
Definition the_inst (a : args) : instrument KV :=
  mk_inst (a_name a) (or_default (a_desc a)) (Some (a_kind a)) (or_default (a_unit a)) (a_scope a).
Definition the_bounds (a : args) : option (list f64) := match a_kind a with KHistogram => a_bounds a | _ => None end.

(** A reader's pipeline with the measures each created instrument has in it: the
    [ResolvedMeasures] of an instrument are the concatenation over the readers. *)
Record pstate := mk_ps { ps_pipe : pipe; ps_handles : list (list nat) }.
(** [callbacks]: the registered callbacks (instrument, number); [register_callback]
    adds to every pipeline (pipeline.rs:669-677), so there is one list. *)
Record mstate := mk_ms { ms_pipes : list pstate; ms_kinds : list kind; ms_callbacks : list (nat * nat) }.
Definition m_init (readers : nat) : mstate := mk_ms (repeat (mk_ps (mk_pipe [] []) []) readers) [] [].

Definition is_err {X} (r : result X) : bool := match r with Err => true | _ => false end.
Definition measures_of (r : result (list nat)) : list nat := match r with Ok l => l | Err => [] end.
(** Creating an instrument: invalid parameters or an error in any pipeline give a
    no-op instrument (meter.rs:72-447, pipeline.rs:726-750); callbacks of an
    observable are registered unless it has no measures. *)
Definition create (a : args) (s : mstate) : mstate :=
  if create_ok (a_kind a) (a_name a) (a_unit a) (a_bounds a) then
    let rs := map (fun ps => inserter_instrument (the_inst a) (a_num a) (a_kind a) (the_bounds a) (a_limit a) (ps_pipe ps)) (ms_pipes s) in
    let err := existsb (fun r => is_err (snd r)) rs in
    let handle (r : pipe * result (list nat)) := if err then [] else measures_of (snd r) in
    let h := length (ms_kinds s) in
    mk_ms (map (fun x => mk_ps (fst (snd x)) (ps_handles (fst x) ++ [handle (snd x)])) (combine (ms_pipes s) rs))
      (ms_kinds s ++ [a_kind a])
      (ms_callbacks s ++
       if is_obs (a_kind a) && existsb (fun r => negb (length (handle r) =? 0)) rs then map (pair h) (seq 0 (a_callbacks a)) else [])
  else
    mk_ms (map (fun ps => mk_ps (ps_pipe ps) (ps_handles ps ++ [[]])) (ms_pipes s)) (ms_kinds s ++ [a_kind a]) (ms_callbacks s).

(** [measure.call]: one value into one aggregator. *)
Definition log_one (src : source) (v : V) (l : list sync) (i : nat) : list sync :=
  match nth_error l i with
  | Some s => set_nth i (mk_sync (s_key s) (s_name s) (s_desc s) (s_unit s) (s_impl s) (s_keys s) (s_limit s) (s_log s ++ [(src, v)])) l
  | None => l
  end.
(** [ResolvedMeasures::measure] / [Observable::observe] (instrument.rs:283-330). *)
Definition record_in (h : nat) (src : source) (v : V) (ps : pstate) : pstate :=
  mk_ps (mk_pipe (fold_left (log_one src v) (nth h (ps_handles ps) []) (p_syncs (ps_pipe ps))) (p_cache (ps_pipe ps))) (ps_handles ps).
Definition record_value (h : nat) (src : source) (v : V) (s : mstate) : mstate :=
  mk_ms (map (record_in h src v) (ms_pipes s)) (ms_kinds s) (ms_callbacks s).

(** An execution: creations, direct measurements, and collections.  A collection
    by reader [r] first runs all callbacks (pipeline.rs:103-114); [obs] gives the
    values each of them reports (callback [j] of instrument [h]: [obs h j]). *)
Inductive event := Create (a : args) | Measure (h : nat) (v : V) | Collect (r : nat) (obs : nat -> nat -> list V).
Definition run_callback (r : nat) (obs : nat -> nat -> list V) (s : mstate) (cb : nat * nat) : mstate :=
  fold_left (fun s v => record_value (fst cb) (During r) v s) (obs (fst cb) (snd cb)) s.
Definition run_callbacks (r : nat) (obs : nat -> nat -> list V) (s : mstate) : mstate :=
  fold_left (run_callback r obs) (ms_callbacks s) s.
Definition mstep (s : mstate) (e : event) : mstate :=
  match e with
  | Create a => create a s
  | Measure h v =>
    match nth_error (ms_kinds s) h with
    | Some k => if is_obs k then s else record_value h Direct v s
    | None => s
    end
  | Collect r obs => run_callbacks r obs s
  end.
Definition mrun (readers : nat) (es : list event) : mstate := fold_left mstep es (m_init readers).
End pipeline.
