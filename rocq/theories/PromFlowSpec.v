(** What a Prometheus scrape should show of a stream, in terms of the measurements made. *)
From Coq Require Import String List Bool Arith NArith ZArith Sorting.Sorted.
From Verif Require Import Str F64 InstrModel AttrModel HistModel PipelineModel PipelineProps EndSpec MetricWireModel MetricWireSpec.
From Verif Require KvModel PromModel PromProps.
Import ListNotations.
Local Open Scope nat_scope.

(** The type and the name of what is exported for a stream: namespace, name (cleaned, see
    C63), unit and, for what only grows, [_total].  Exponential histograms are left out. *)
Definition exported {KV} (alnum : char -> bool) (cfg : PromModel.config) (c : @config KV) : option (PromModel.mtype * list N) :=
  let name (total : bool) : list N :=
    PromProps.opt_app (PromModel.namespace cfg) ++ PromModel.sanitize_name alnum (c_name c) ++
    PromProps.us (if PromModel.without_units cfg then None else PromModel.unit_suffix (c_unit c)) ++
    (if total && negb (PromModel.without_counter_suffixes cfg) then of_string "_total" else []) in
  match c_impl c with
  | ISum true | IPre true => Some (PromModel.COUNTER, name true)
  | ISum false | IPre false | ILast _ => Some (PromModel.GAUGE, name false)
  | IHist _ _ _ => Some (PromModel.HISTOGRAM, name false)
  | IExpo _ _ _ _ => None
  end.

(** The sample for the measurements [l]: the sum, the last value or, for each boundary, how many
    measurements were not above it. *)
Definition sample (u : num) (im : impl) (l : list number) (v : PromModel.fvalue) : Prop :=
  let last_value f := exists l' x, l = l' ++ [x] /\ f = as_float x in
  let sum_value f := number_typed u (total u l) -> f = as_float (total u l) in
  match im, v with
  | ISum true, PromModel.FCounter f | ISum false, PromModel.FGauge f => sum_value f
  | IPre true, PromModel.FCounter f | IPre false, PromModel.FGauge f | ILast _, PromModel.FGauge f => last_value f
  | IHist given _ rs, PromModel.FHist sum count buckets =>
    (rs = true -> sum_value sum) /\ count = N.of_nat (length l) /\
    (forall b, In b (map fst buckets) <-> In b given /\ f64_is_nan b = false) /\
    StronglySorted (fun x y => f64_leb x y = true) (map fst buckets) /\
    ((forall x, In x l -> f64_is_nan (as_float x) = false) -> forall b n, In (b, n) buckets -> n = N.of_nat (length (filter (fun x => f64_leb (as_float x) b) l)))
  | _, _ => False
  end.
