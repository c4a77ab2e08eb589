(** Explicit-bucket histograms
    (opentelemetry-sdk/src/metrics/internal/histogram.rs) and the checks on their
    boundaries (opentelemetry-sdk/src/metrics/meter.rs:564-587). *)
From Coq Require Import List Bool Arith NArith ZArith Permutation Sorting.Sorted.
From Verif Require Import F64.
Import ListNotations.

(** [slice::partition_point] of the standard library: for a list whose elements
    satisfying [p] all come first, the number of them.  It is a binary search, so
    nothing is assumed about other lists except that the result is an index. *)
Definition partition_point_ok (pp : (f64 -> bool) -> list f64 -> nat) : Prop :=
  (forall p l, pp p l <= length l) /\
  forall p a b, forallb p a = true -> forallb (fun x => negb (p x)) b = true -> pp p (a ++ b) = length a.
(** One such function: a linear search. *)
Fixpoint pp_linear (p : f64 -> bool) (l : list f64) : nat :=
  match l with
  | [] => 0
  | x :: l => if p x then S (pp_linear p l) else 0
  end.

Section number.
(** The number type [T] of an instrument: i64, u64 or f64 (mod.rs:260-322). *)
Context {T : Type}.
Variable plus : T -> T -> T.
Variable lt : T -> T -> bool.
Variables zero tmin tmax : T.
Variable into_float : T -> f64.

(** [Buckets] (histogram.rs:49-68).  Counters are unbounded here; in the code
    they are u64. *)
Record buckets := mk_b { b_counts : list N; b_count : N; b_total : T; b_min : T; b_max : T }.
Definition b_new (n : nat) : buckets := mk_b (repeat 0%N n) 0%N zero tmax tmin.
Fixpoint bump (i : nat) (l : list N) : list N :=
  match l, i with
  | [], _ => []
  | x :: l, 0 => (x + 1)%N :: l
  | x :: l, S i => x :: bump i l
  end.
(** [update] (histogram.rs:25-37).  An index out of range would panic; it cannot
    be (see [C47_index_in_range]). *)
Definition b_update (b : buckets) (vi : T * nat) : buckets :=
  let '(v, i) := vi in
  mk_b (bump i (b_counts b)) (b_count b + 1)%N (plus (b_total b) v)
    (if lt v (b_min b) then v else b_min b) (if lt (b_max b) v then v else b_max b).

Variable pp : (f64 -> bool) -> list f64 -> nat.
(** [call] (histogram.rs:225-237): the bucket of a measurement. *)
Definition bucket_index (bounds : list f64) (v : T) : nat :=
  let f := into_float v in pp (fun x => f64_ltb x f) bounds.
Definition h_create (bounds : list f64) : buckets := b_new (length bounds + 1).
Definition h_update (bounds : list f64) (b : buckets) (v : T) : buckets := b_update b (v, bucket_index bounds v).

(** The exported point (histogram.rs:133-155, 186-208). *)
Record hpoint := mk_hp { hp_count : N; hp_bounds : list f64; hp_counts : list N; hp_sum : T; hp_min : option T; hp_max : option T }.
Definition h_point (bounds : list f64) (record_sum record_min_max : bool) (b : buckets) : hpoint :=
  mk_hp (b_count b) bounds (b_counts b) (if record_sum then b_total b else zero)
    (if record_min_max then Some (b_min b) else None) (if record_min_max then Some (b_max b) else None).
End number.

(** [validate_bucket_boundaries] (meter.rs:564-587). *)
Fixpoint increasing (l : list f64) : bool :=
  match l with
  | x :: ((y :: _) as r) => negb (f64_leb y x) && increasing r
  | _ => true
  end.
Definition bounds_valid (l : list f64) : bool :=
  forallb (fun b => negb (f64_is_nan b || f64_is_inf b)) l && increasing l.
(** With views, boundaries are instead cleaned up by [Histogram::new]
    (histogram.rs:92-97): NaNs removed, the rest sorted (by [srt]). *)
Definition retained (l : list f64) : list f64 := filter (fun v => negb (f64_is_nan v)) l.
Definition f64_sort_ok (srt : list f64 -> list f64) : Prop :=
  forall l, forallb (fun v => negb (f64_is_nan v)) l = true ->
  Permutation (srt l) l /\ StronglySorted (fun x y => f64_leb x y = true) (srt l).
