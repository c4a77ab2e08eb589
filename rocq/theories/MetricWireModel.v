(** Metrics from the instruments to the OTLP request: EndModel.v with the sums, gauges and
    histograms of opentelemetry-sdk/src/metrics/internal as its
    aggregators, and the request that opentelemetry-otlp makes of a collection
    (transform/metrics.rs, the From<&ResourceMetrics> of OtlpModel.v).

    Simplifications: those of EndModel.v; a value of an attribute is a [Vl] with decidable
    equality which [val] turns into a value (floats, whose equality is not the identity,
    are thus left out unless [Vl] has one of each); an exponential histogram whose
    recording panicked reports no point (in the code: what it held, with the failed
    measurement in part). *)
From Coq Require Import List Bool NArith ZArith.
From Verif Require Import Str F64 InstrModel AttrModel PipelineModel ProduceModel HistModel ExpoModel.
From Verif Require KvModel OtlpModel.
Import ListNotations.
Local Open Scope Z_scope.

(** * Numbers (internal/mod.rs:277-495) *)
Inductive number := NZ (z : Z) | NF (f : f64).
(** Atomic addition wraps; so does [+=] on the total of a histogram when overflow checks
    are off. *)
Definition wrap (u : num) (z : Z) : Z :=
  match u with U64 => z mod 2 ^ 64 | _ => (z + 2 ^ 63) mod 2 ^ 64 - 2 ^ 63 end.
Definition z_min (u : num) : Z := match u with U64 => 0 | _ => - 2 ^ 63 end.
Definition z_max (u : num) : Z := match u with U64 => 2 ^ 64 - 1 | _ => 2 ^ 63 - 1 end.

Section aggregators.
(** partition_point, sort_by, f64::MIN and f64::MAX. *)
Variable pp : (f64 -> bool) -> list f64 -> nat.
Variable fsort : list f64 -> list f64.
Variables fmin fmax : f64.
(** [f64::ln] (ExpoModel.v). *)
Variable ln : f64 -> f64.

(** * Aggregators: sum.rs:17-50, last_value.rs:13-45 (also of precomputed_sum.rs:13), histogram.rs:17-108, exponential_histogram.rs:316-388 *)
Inductive agg_state :=
| AZ (z : Z) | AF (f : f64)
| AHZ (bounds : list f64) (mm rs : bool) (b : @buckets Z) | AHF (bounds : list f64) (mm rs : bool) (b : @buckets f64)
| AEZ (mm rs : bool) (h : option (@expo Z)) | AEF (mm rs : bool) (h : option (@expo f64)).
Definition w_create (u : num) (im : impl) : agg_state :=
  match im with
  | IHist bounds mm rs =>
    let bounds := fsort (retained bounds) in
    match u with
    | F64n => AHF bounds mm rs (h_create (f64_of_Z 0) fmin fmax bounds)
    | _ => AHZ bounds mm rs (h_create 0 (z_min u) (z_max u) bounds)
    end
  | IExpo size scale mm rs =>
    (* [max_size as i32] (exponential_histogram.rs:379) *)
    match u with
    | F64n => AEF mm rs (Some (x_new (f64_of_Z 0) fmin fmax (i32 (Z.of_N size)) scale))
    | _ => AEZ mm rs (Some (x_new 0 (z_min u) (z_max u) (i32 (Z.of_N size)) scale))
    end
  | _ => match u with F64n => AF (f64_of_Z 0) | _ => AZ 0 end
  end.
Definition option_bind {X Y} (f : X -> option Y) (o : option X) : option Y := match o with Some x => f x | None => None end.
(** A poisoned series ignores measurements (exponential_histogram.rs:326-332). *)
Definition w_update (u : num) (im : impl) (a : agg_state) (v : number) : agg_state :=
  match a, v with
  | AZ x, NZ z => match im with ILast _ | IPre _ => AZ z | _ => AZ (wrap u (x + z)) end
  | AF x, NF f => match im with ILast _ | IPre _ => AF f | _ => AF (f64_add x f) end
  | AHZ bounds mm rs b, NZ z => AHZ bounds mm rs (h_update (fun x y => wrap u (x + y)) Z.ltb f64_of_Z pp bounds b z)
  | AHF bounds mm rs b, NF f => AHF bounds mm rs (h_update f64_add f64_ltb (fun f => f) pp bounds b f)
  | AEZ mm rs h, NZ z => AEZ mm rs (option_bind (fun h => x_record ln (fun x y => wrap u (x + y)) Z.ltb 0 f64_of_Z h z) h)
  | AEF mm rs h, NF f => AEF mm rs (option_bind (fun h => x_record ln f64_add f64_ltb (f64_of_Z 0) (fun f => f) h f) h)
  | _, _ => a
  end.
(** [value - reported] (precomputed_sum.rs:74), which wraps when overflow checks are off. *)
Definition w_sub (u : num) (a b : agg_state) : agg_state :=
  match a, b with
  | AZ x, AZ y => AZ (wrap u (x - y))
  | AF x, AF y => AF (f64_sub x y)
  | _, _ => a
  end.
(** The exponential histogram ignores what is not finite (exponential_histogram.rs:515-521). *)
Definition w_accepts (im : impl) (v : number) : bool :=
  match im, v with IExpo _ _ _ _, NF f => f64_is_finite f | _, _ => true end.

(** * The request *)
Context {Vl : Type} (val : Vl -> KvModel.value).
Definition w_attr (kv : kv Vl) : KvModel.attr := (fst kv, val (snd kv)).
Definition w_scope (s : InstrModel.scope (kv Vl)) : KvModel.scope :=
  KvModel.mk_scope (InstrModel.sc_name s) (InstrModel.sc_version s) (InstrModel.sc_url s) (map w_attr (InstrModel.sc_attrs s)).
Definition w_temp (t : temporality) : OtlpModel.temporality :=
  match t with Cumulative => OtlpModel.Cumulative | Delta => OtlpModel.Delta | LowMemory => OtlpModel.LowMemory end.
Notation points := (list (list (kv Vl) * agg_state)).
(** The points as data::{SumDataPoint,GaugeDataPoint,HistogramDataPoint,
    ExponentialHistogramDataPoint} (sum.rs:80-150, last_value.rs:60-135,
    histogram.rs:133-208, exponential_histogram.rs:414-508); the SDK collects no exemplars. *)
Definition z_points (ps : points) : list (OtlpModel.npoint Z) :=
  flat_map (fun p => match snd p with AZ z => [OtlpModel.mk_np (map w_attr (fst p)) z []] | _ => [] end) ps.
Definition f_points (ps : points) : list (OtlpModel.npoint f64) :=
  flat_map (fun p => match snd p with AF f => [OtlpModel.mk_np (map w_attr (fst p)) f []] | _ => [] end) ps.
Definition hist_point {T} (zero : T) (attrs : list KvModel.attr) (bounds : list f64) (mm rs : bool) (b : @buckets T) : OtlpModel.hpoint T :=
  let p := h_point zero bounds rs mm b in
  OtlpModel.mk_hp attrs (hp_count p) (hp_bounds p) (hp_counts p) (hp_min p) (hp_max p) (hp_sum p) [].
Definition zh_points (ps : points) : list (OtlpModel.hpoint Z) :=
  flat_map (fun p => match snd p with AHZ bounds mm rs b => [hist_point 0 (map w_attr (fst p)) bounds mm rs b] | _ => [] end) ps.
Definition fh_points (ps : points) : list (OtlpModel.hpoint f64) :=
  flat_map (fun p => match snd p with AHF bounds mm rs b => [hist_point (f64_of_Z 0) (map w_attr (fst p)) bounds mm rs b] | _ => [] end) ps.
Definition expo_point {T} (zero : T) (attrs : list KvModel.attr) (mm rs : bool) (h : @expo T) : OtlpModel.epoint T :=
  OtlpModel.mk_ep attrs (x_count h) (if mm then Some (x_min h) else None) (if mm then Some (x_max h) else None) (if rs then x_sum h else zero) (x_scale h) (x_zero h)
    (eb_start (x_pos h), eb_counts (x_pos h)) (eb_start (x_neg h), eb_counts (x_neg h)) (f64_of_Z 0) [].
Definition ze_points (ps : points) : list (OtlpModel.epoint Z) :=
  flat_map (fun p => match snd p with AEZ mm rs (Some h) => [expo_point 0 (map w_attr (fst p)) mm rs h] | _ => [] end) ps.
Definition fe_points (ps : points) : list (OtlpModel.epoint f64) :=
  flat_map (fun p => match snd p with AEF mm rs (Some h) => [expo_point (f64_of_Z 0) (map w_attr (fst p)) mm rs h] | _ => [] end) ps.
Definition w_data {T} (nps : points -> list (OtlpModel.npoint T)) (hps : points -> list (OtlpModel.hpoint T)) (xps : points -> list (OtlpModel.epoint T))
    (d : @mdata Z (list (kv Vl) * agg_state)) : OtlpModel.mdata T :=
  match d with
  | MGauge g => OtlpModel.MGauge (nps (g_points g)) (g_start g) (g_time g)
  | MSum s => OtlpModel.MSum (nps (s_points s)) (s_start s) (s_time s) (w_temp (s_temp s)) (s_mono s)
  | MHist h => OtlpModel.MHist (hps (h_points h)) (h_start h) (h_time h) (w_temp (h_temp h))
  | MExpo h => OtlpModel.MExpo (xps (h_points h)) (h_start h) (h_time h) (w_temp (h_temp h))
  end.
Definition w_metric (m : @metric Z (list (kv Vl) * agg_state)) : OtlpModel.metric :=
  OtlpModel.mk_metric (m_name m) (m_desc m) (m_unit m)
    match fst (m_data m) with
    | U64 => OtlpModel.DU64 (w_data z_points zh_points ze_points (snd (m_data m)))
    | I64 => OtlpModel.DI64 (w_data z_points zh_points ze_points (snd (m_data m)))
    | F64n => OtlpModel.DF64 (w_data f_points fh_points fe_points (snd (m_data m)))
    end.
Definition w_request (rm : @resource_metrics (InstrModel.scope (kv Vl)) OtlpModel.resource Z (list (kv Vl) * agg_state)) : OtlpModel.presource OtlpModel.pmetric :=
  OtlpModel.metrics_msg (rm_resource rm) (map (fun sm => (w_scope (sm_scope sm), map w_metric (sm_metrics sm))) (rm_scopes rm)).
End aggregators.
