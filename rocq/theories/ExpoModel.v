(** Base-2 exponential histograms
    (opentelemetry-sdk/src/metrics/internal/exponential_histogram.rs).

    Bins are i32 in the code: [i32] is the wrap-around of release builds, applied
    where a result can leave the range.  Counters (u64, usize) are unbounded.
    [None] stands for a panic, after which the series' mutex is poisoned and later
    measurements for it are ignored (exponential_histogram.rs:326-331). *)
From Coq Require Import List Bool Arith NArith ZArith.
From Flocq Require Import Core IEEE754.BinarySingleNaN IEEE754.Binary IEEE754.Bits.
From Verif Require Import F64.
Import ListNotations.
Local Open Scope Z_scope.

Definition EXPO_MAX_SCALE : Z := 20.
Definition EXPO_MIN_SCALE : Z := -10.
Definition i32 (z : Z) : Z := (z + 2 ^ 31) mod 2 ^ 32 - 2 ^ 31.

(** [frexp] (exponential_histogram.rs:205-229).  The code calls itself once for a
    subnormal number; multiplied by 2^64 it is normal, so [frexp_normal] suffices
    there. *)
Definition exponent_bits (x : f64) : Z := Z.land (Z.shiftr (f64_bits x) 52) 0x7ff.
Definition frexp_normal (x : f64) : f64 * Z :=
  (f64_from_bits (Z.lor (Z.land (f64_bits x) 0x800fffffffffffff) 0x3fe0000000000000), exponent_bits x - 0x3fe).
Definition frexp (x : f64) : f64 * Z :=
  if exponent_bits x =? 0 then
    if f64_eqb x (f64_of_Z 0) then (x, 0)
    else let '(f, e) := frexp_normal (f64_mul x (f64_from_bits 0x43f0000000000000)) in (f, e - 64)
  else if exponent_bits x =? 0x7ff then (x, 0)
  else frexp_normal x.

(** [x as i32]. *)
Definition f64_to_i32 (x : f64) : Z :=
  match x with
  | B754_nan _ _ _ _ _ => 0
  | B754_infinity _ _ s => if s then - 2 ^ 31 else 2 ^ 31 - 1
  | _ => Z.max (- 2 ^ 31) (Z.min (2 ^ 31 - 1) (Binary.Btrunc 53 1024 x))
  end.
(** [LOG2_E] and [scale_factors] (exponential_histogram.rs:172-203). *)
Definition LOG2_E : f64 := f64_lit 6497320848556798 (-52).
Definition scale_factor (s : Z) : f64 := f64_mul LOG2_E (f64_lit 1 s).
Definition half : f64 := f64_lit 1 (-1).

(** [f64::abs]. *)
Definition f64_abs (x : f64) : f64 := b64_abs x.

Section expo.
(** [f64::ln] is not specified bit for bit; any function will do. *)
Variable ln : f64 -> f64.

(** [get_bin] (exponential_histogram.rs:125-138). *)
Definition get_bin (scale : Z) (v : f64) : Z :=
  let '(frac, exp) := frexp v in
  if scale <=? 0 then
    let correction := if f64_eqb frac half then 2 else 1 in
    Z.shiftr (exp - correction) (- scale)
  else Z.shiftl exp scale + f64_to_i32 (f64_mul (ln frac) (scale_factor scale)) - 1.

(** [scale_change] (exponential_histogram.rs:144-169): the loop runs at most
    EXPO_MAX_SCALE - EXPO_MIN_SCALE + 1 times. *)
Fixpoint sc_loop (fuel : nat) (max_size low high : Z) : nat :=
  match fuel with
  | O => O
  | S f => if max_size <=? i32 (high - low) then S (sc_loop f max_size (Z.shiftr low 1) (Z.shiftr high 1)) else O
  end.
Definition scale_change (max_size bin start_bin len : Z) : Z :=
  if len =? 0 then 0
  else let '(low, high) := if bin <=? start_bin then (bin, start_bin + len - 1) else (start_bin, bin) in
       Z.of_nat (sc_loop 31 max_size low high).

(** [ExpoBuckets] (exponential_histogram.rs:231-314). *)
Record ebuckets := mk_eb { eb_start : Z; eb_counts : list N }.
Definition eb_new : ebuckets := mk_eb 0 [].
Definition elen (b : ebuckets) : Z := Z.of_nat (length (eb_counts b)).
Fixpoint upd (i : nat) (f : N -> N) (l : list N) : list N :=
  match l, i with
  | [], _ => []
  | x :: l, O => f x :: l
  | x :: l, S i => x :: upd i f l
  end.
(** [record] (242-278).  A negative size read as usize is too large to allocate; a
    slice of the wrong length panics. *)
Definition eb_record (bin : Z) (b : ebuckets) : option ebuckets :=
  match eb_counts b with
  | [] => Some (mk_eb bin [1%N])
  | _ =>
    let end_bin := i32 (eb_start b + elen b - 1) in
    if (eb_start b <=? bin) && (bin <=? end_bin)
    then Some (mk_eb (eb_start b) (upd (Z.to_nat (bin - eb_start b)) (fun n => n + 1)%N (eb_counts b)))
    else if bin <? eb_start b then
      let size := i32 (end_bin - bin + 1) in
      let shift := i32 (eb_start b - bin) in
      if (size <? 0) || (shift <? 0) || negb (size =? shift + elen b) then None
      else Some (mk_eb bin (upd 0 (fun _ => 1%N) (repeat 0%N (Z.to_nat shift) ++ eb_counts b)))
    else
      let n := i32 (bin - eb_start b) in
      if n <? elen b then None
      else Some (mk_eb (eb_start b) (upd (Z.to_nat n) (fun _ => 1%N) (eb_counts b ++ repeat 0%N (Z.to_nat (n - elen b + 1)))))
  end.
(** [downscale] (283-313). *)
Definition ds_step (steps offset : Z) (arr : list N) (i : nat) : list N :=
  let idx := Z.of_nat i + offset in
  let c := nth i arr 0%N in
  if idx mod steps =? 0 then upd (Z.to_nat (idx / steps)) (fun _ => c) arr
  else upd (Z.to_nat (idx / steps)) (fun x => x + c)%N arr.
Definition eb_downscale (delta : Z) (b : ebuckets) : ebuckets :=
  if (elen b <=? 1) || (delta <? 1) then mk_eb (Z.shiftr (eb_start b) delta) (eb_counts b)
  else
    let steps := Z.shiftl 1 delta in
    let offset := Z.rem (Z.rem (eb_start b) steps + steps) steps in
    let arr := fold_left (ds_step steps offset) (seq 1 (length (eb_counts b) - 1)) (eb_counts b) in
    let last_idx := (elen b - 1 + offset) / steps in
    mk_eb (Z.shiftr (eb_start b) delta) (firstn (Z.to_nat last_idx + 1) arr).

Section number.
Context {T : Type}.
Variable plus : T -> T -> T.
Variable lt : T -> T -> bool.
Variables zero tmin tmax : T.
Variable into_float : T -> f64.
(** [ExpoHistogramDataPoint] (19-46). *)
Record expo := mk_x { x_max_size : Z; x_count : N; x_min : T; x_max : T; x_sum : T; x_scale : Z;
                      x_pos : ebuckets; x_neg : ebuckets; x_zero : N }.
Definition x_new (max_size max_scale : Z) : expo := mk_x max_size 0 tmax tmin zero max_scale eb_new eb_new 0.
(** [record] (53-122). *)
Definition x_record (h : expo) (v : T) : option expo :=
  let count := (x_count h + 1)%N in
  let mn := if lt v (x_min h) then v else x_min h in
  let mx := if lt (x_max h) v then v else x_max h in
  let sum := plus (x_sum h) v in
  let abs_v := f64_abs (into_float v) in
  if f64_eqb abs_v (f64_of_Z 0)
  then Some (mk_x (x_max_size h) count mn mx sum (x_scale h) (x_pos h) (x_neg h) (x_zero h + 1)%N)
  else
    let bin := get_bin (x_scale h) abs_v in
    let negative := lt v zero in
    let bucket := if negative then x_neg h else x_pos h in
    let delta := scale_change (x_max_size h) bin (eb_start bucket) (elen bucket) in
    if (0 <? delta) && (x_scale h - delta <? EXPO_MIN_SCALE)
    then Some (mk_x (x_max_size h) count mn mx sum (x_scale h) (x_pos h) (x_neg h) (x_zero h))
    else
      let '(scale, pos, neg, bin) :=
        if 0 <? delta
        then (x_scale h - delta, eb_downscale delta (x_pos h), eb_downscale delta (x_neg h), get_bin (x_scale h - delta) abs_v)
        else (x_scale h, x_pos h, x_neg h, bin) in
      if negative
      then match eb_record bin neg with Some b => Some (mk_x (x_max_size h) count mn mx sum scale pos b (x_zero h)) | None => None end
      else match eb_record bin pos with Some b => Some (mk_x (x_max_size h) count mn mx sum scale b neg (x_zero h)) | None => None end.
(** [call] (515-526): values that are not finite are ignored. *)
Definition x_call (h : expo) (v : T) : option expo := if f64_is_finite (into_float v) then x_record h v else Some h.
Fixpoint x_run (h : expo) (vs : list T) : option expo :=
  match vs with
  | [] => Some h
  | v :: vs => match x_call h v with Some h' => x_run h' vs | None => None end
  end.
End number.
End expo.
