(** What an OTLP receiver should read of a stream, in terms of the measurements made. *)
From Coq Require Import List Bool Arith NArith ZArith Reals.
From Flocq Require Import Core.
From Verif Require Import Str F64 F64Proofs InstrModel AttrModel ValueMapProps HistModel PipelineModel PipelineProps EndSpec MetricWireModel.
From Verif Require KvModel ProduceModel OtlpModel ProtoSpec ProtoProps ExpoFloat ExpoProps.
Import ListNotations.
Local Open Scope nat_scope.

(** * What Rust's types say about the calls *)
Definition number_typed (u : num) (v : number) : Prop :=
  match u, v with
  | U64, NZ z => (0 <= z < 2 ^ 64)%Z
  | I64, NZ z => (- 2 ^ 63 <= z < 2 ^ 63)%Z
  | F64n, NF _ => True
  | _, _ => False
  end.
Section typed.
Context {Vl : Type} (val : Vl -> KvModel.value).
Notation V := (list (kv Vl) * number)%type.
Definition attrs_typed (l : list (kv Vl)) : Prop := Forall (fun a => ProtoProps.typed_attr (w_attr val a)) l.
(** [e] brings instrument [h] the measurement [v]. *)
Definition brings (e : @event (kv Vl) V) (h : nat) (v : V) : Prop :=
  match e with
  | Create _ => False
  | Measure h' v' => h' = h /\ v' = v
  | Collect _ obs => exists j, In v (obs h j)
  end.
Fixpoint calls_typed (created : list (@args (kv Vl))) (es : list (@event (kv Vl) V)) : Prop :=
  match es with
  | [] => True
  | e :: es =>
    (forall h a v, nth_error created h = Some a -> brings e h v -> attrs_typed (fst v) /\ number_typed (a_num a) (snd v)) /\
    calls_typed (created ++ creates e) es
  end.
(** Streams with names, descriptions, units and scopes that are texts. *)
Definition stream_typed (c : @config (kv Vl)) : Prop :=
  ProtoSpec.text (c_name c) /\ ProtoSpec.text (c_desc c) /\ ProtoSpec.text (c_unit c) /\ ProtoProps.typed_scope (w_scope val (scope_of c)).
End typed.

(** * What is made of a list of measurements *)
Definition ints (l : list number) : list Z := flat_map (fun v => match v with NZ z => [z] | NF _ => [] end) l.
Definition floats (l : list number) : list f64 := flat_map (fun v => match v with NF f => [f] | NZ _ => [] end) l.
Definition as_float (v : number) : f64 := match v with NZ z => f64_of_Z z | NF f => f end.
Definition plain_number (v : number) : OtlpModel.pnum := match v with NZ z => OtlpModel.AsInt z | NF f => OtlpModel.AsDouble f end.
(** Sums: exact for integers; for floats, the additions in order. *)
Definition total (u : num) (l : list number) : number :=
  match u with F64n => NF (fold_left f64_add (floats l) (f64_of_Z 0)) | _ => NZ (zsum (ints l)) end.
(** What was measured last, if anything; the change from one number to another. *)
Definition latest (u : num) (l : list number) : number := last l match u with F64n => NF (f64_of_Z 0) | _ => NZ 0 end.
Definition minus (x y : number) : number :=
  match x, y with NZ x, NZ y => NZ (x - y) | NF x, NF y => NF (f64_sub x y) | _, _ => x end.
(** The integers OTLP can carry (a 64-bit signed number). *)
Definition carried (u : num) (v : number) : Prop :=
  match u, v with
  | U64, NZ z => (0 <= z < 2 ^ 63)%Z
  | I64, NZ z => (- 2 ^ 63 <= z < 2 ^ 63)%Z
  | _, _ => True
  end.
(** The [i]th bucket: above the boundary before it, up to its own. *)
Definition in_bucket (bounds : list f64) (i : nat) (f : f64) : bool :=
  match i with 0 => true | S j => match nth_error bounds j with Some b => f64_ltb b f | None => false end end &&
  match nth_error bounds i with Some b => f64_leb f b | None => true end.
(** The least and the largest; floats are compared as real numbers. *)
Definition extremes (u : num) (l : list number) (lo hi : f64) : Prop :=
  match u with
  | F64n => (forall f, In f (floats l) -> f64_is_finite f = true) ->
     (exists f, In f (floats l) /\ f64R lo = f64R f) /\ (exists f, In f (floats l) /\ f64R hi = f64R f) /\
     forall f, In f (floats l) -> (f64R lo <= f64R f <= f64R hi)%R
  | _ => exists x y, In x (ints l) /\ In y (ints l) /\ lo = f64_of_Z x /\ hi = f64_of_Z y /\ forall z, In z (ints l) -> (x <= z <= y)%Z
  end.
(** ** Exponential histograms *)
Definition is_zero (v : number) : bool := Req_bool (f64R (as_float v)) 0.
Definition below_zero (v : number) : bool := match v with NZ z => (z <? 0)%Z | NF f => f64_ltb f (f64_of_Z 0) end.
Definition magnitude (v : number) : R := Rabs (f64R (as_float v)).
(** The configurations and the measurements that an exponential histogram can take (see
    C111 for the others): [ln] is the platform's logarithm. *)
Definition config_fits (ln : f64 -> f64) (im : impl) : Prop :=
  match im with
  | IExpo size scale _ _ => (3 <= size < 2 ^ 31)%N /\ (-10 <= scale <= 20)%Z /\ (ExpoFloat.ln_ok ln \/ (scale <= 0)%Z)
  | _ => True
  end.
Definition value_fits (im : impl) (v : number) : Prop :=
  match im with
  | IExpo _ scale _ _ => scale = 20%Z -> is_zero v = true \/ (bpow radix2 (-1022) <= magnitude v)%R
  | _ => True
  end.
(** The measurements below or above zero, and those of bucket [i] at scale [s]: from
    base^i (exclusive) to base^(i+1), where base is 2^(2^-s). *)
Definition side (negative : bool) (l : list number) : list number := filter (fun v => negb (is_zero v) && Bool.eqb (below_zero v) negative) l.
Definition in_power_bucket (s i : Z) (v : number) : bool :=
  Rlt_bool (bpow radix2 (i * 2 ^ (- s))) (magnitude v) && Rle_bool (magnitude v) (bpow radix2 ((i + 1) * 2 ^ (- s))).
Definition near_power_bucket (eps : R) (s i : Z) (v : number) : Prop :=
  (Rpower 2 (IZR i / Rpower 2 (IZR s) - eps) < magnitude v <= Rpower 2 (IZR (i + 1) / Rpower 2 (IZR s) + eps))%R.
Definition reported (b : Z * list N) (i : Z) : N :=
  if ((fst b <=? i) && (i <? fst b + Z.of_nat (length (snd b))))%Z then nth (Z.to_nat (i - fst b)) (snd b) 0%N else 0%N.
Definition shows_side (ln : f64 -> f64) (size : N) (s : Z) (l : list number) (b : Z * list N) : Prop :=
  (N.of_nat (length (snd b)) <= size)%N /\
  fold_right N.add 0%N (snd b) = N.of_nat (length l) /\
  ((s <= 0)%Z -> forall i, reported b i = N.of_nat (length (filter (in_power_bucket s i) l))) /\
  ((0 <= s)%Z -> ExpoFloat.ln_ok ln -> forall eps, ExpoProps.log_error ln eps ->
     exists bucket : number -> Z, (forall v, In v l -> near_power_bucket eps s (bucket v) v) /\
       forall i, reported b i = N.of_nat (length (filter (fun v => (bucket v =? i)%Z) l))).
Section points.
Context {Vl : Type} (val : Vl -> KvModel.value) (u : num) (start time : Z).
(** [l] are the measurements with the attributes [a]. *)
Definition shows (v : number) (a : list (kv Vl)) (p : OtlpModel.pnpoint) : Prop :=
  p = OtlpModel.mk_pnp (OtlpModel.attrs_msg (map (w_attr val) a)) (OtlpModel.to_nanos start) (OtlpModel.to_nanos time) [] (plain_number v).
Definition shows_sum (l : list number) (a : list (kv Vl)) (p : OtlpModel.pnpoint) : Prop :=
  carried u (total u l) -> shows (total u l) a p.
Definition shows_last (l : list number) (a : list (kv Vl)) (p : OtlpModel.pnpoint) : Prop :=
  exists l' v, l = l' ++ [v] /\ (carried u v -> shows v a p).
Definition shows_change (l before : list number) (a : list (kv Vl)) (p : OtlpModel.pnpoint) : Prop :=
  l <> [] /\ (carried u (minus (latest u l) (latest u before)) -> shows (minus (latest u l) (latest u before)) a p).
Definition shows_hist (given : list f64) (mm rs : bool) (l : list number) (a : list (kv Vl)) (p : OtlpModel.phpoint) : Prop :=
  OtlpModel.ph_attrs p = OtlpModel.attrs_msg (map (w_attr val) a) /\
  OtlpModel.ph_start p = OtlpModel.to_nanos start /\ OtlpModel.ph_time p = OtlpModel.to_nanos time /\
  OtlpModel.ph_count p = N.of_nat (length l) /\
  (rs = true -> number_typed u (total u l) -> OtlpModel.ph_sum p = as_float (total u l)) /\
  (forall b, In b (OtlpModel.ph_bounds p) <-> In b given /\ f64_is_nan b = false) /\
  length (OtlpModel.ph_buckets p) = length (OtlpModel.ph_bounds p) + 1 /\
  ((forall v, In v l -> f64_is_nan (as_float v) = false) -> forall i n, nth_error (OtlpModel.ph_buckets p) i = Some n ->
     n = N.of_nat (length (filter (fun v => in_bucket (OtlpModel.ph_bounds p) i (as_float v)) l))) /\
  (mm = false -> OtlpModel.ph_min p = None /\ OtlpModel.ph_max p = None) /\
  (mm = true -> exists lo hi, OtlpModel.ph_min p = Some lo /\ OtlpModel.ph_max p = Some hi /\ extremes u l lo hi).
Definition shows_expo (ln : f64 -> f64) (size : N) (scale : Z) (mm rs : bool) (l : list number) (a : list (kv Vl)) (p : OtlpModel.pepoint) : Prop :=
  OtlpModel.pp_attrs p = OtlpModel.attrs_msg (map (w_attr val) a) /\
  OtlpModel.pp_start p = OtlpModel.to_nanos start /\ OtlpModel.pp_time p = OtlpModel.to_nanos time /\
  OtlpModel.pp_count p = N.of_nat (length l) /\
  (rs = true -> number_typed u (total u l) -> OtlpModel.pp_sum p = as_float (total u l)) /\
  (-10 <= OtlpModel.pp_scale p <= scale)%Z /\
  OtlpModel.pp_threshold p = f64_of_Z 0 /\
  OtlpModel.pp_zero p = N.of_nat (length (filter is_zero l)) /\
  shows_side ln size (OtlpModel.pp_scale p) (side false l) (OtlpModel.pp_pos p) /\
  shows_side ln size (OtlpModel.pp_scale p) (side true l) (OtlpModel.pp_neg p) /\
  (mm = false -> OtlpModel.pp_min p = None /\ OtlpModel.pp_max p = None) /\
  (mm = true -> exists lo hi, OtlpModel.pp_min p = Some lo /\ OtlpModel.pp_max p = Some hi /\ extremes u l lo hi).
(** The data of a stream: [sets] are the attributes of its points, [l a] the
    measurements with the attributes [a] and [before a] those in the window before. *)
Definition reads (ln : f64 -> f64) (im : impl) (t : ProduceModel.temporality) (sets : list (list (kv Vl))) (l before : list (kv Vl) -> list number) (d : OtlpModel.pdata) : Prop :=
  let tn := match t with ProduceModel.Delta => 1%Z | _ => 2%Z end in
  match im, d with
  | ISum mono, OtlpModel.PSum ps t' mono' => t' = tn /\ mono' = mono /\ Forall2 (fun a => shows_sum (l a) a) sets ps
  | IPre mono, OtlpModel.PSum ps t' mono' => t' = tn /\ mono' = mono /\
    Forall2 (fun a => match t with ProduceModel.Delta => shows_change (l a) (before a) a | _ => shows_last (l a) a end) sets ps
  | ILast _, OtlpModel.PGauge ps => Forall2 (fun a => shows_last (l a) a) sets ps
  | IHist given mm rs, OtlpModel.PHist ps t' => t' = tn /\ Forall2 (fun a => shows_hist given mm rs (l a) a) sets ps
  | IExpo size scale mm rs, OtlpModel.PExpo ps t' => t' = tn /\ Forall2 (fun a => shows_expo ln size scale mm rs (l a) a) sets ps
  | _, _ => False
  end.
End points.
