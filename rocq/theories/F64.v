(** IEEE 754 double precision numbers, as used by Rust's [f64].  The formal
    type is Flocq's [binary64]; arithmetic rounds to nearest, ties to even, as
    the hardware does by default.  Simplification: which NaN payload an
    operation returns is fixed by Flocq, Rust leaves it open. *)
From Coq Require Import ZArith NArith Bool Reals.
From Flocq Require Import Core IEEE754.BinarySingleNaN IEEE754.Binary IEEE754.Bits.
Local Open Scope Z_scope.

Definition f64 : Type := binary64.

(** [n as f64] for an integer [n] (round to nearest). *)
Definition f64_of_Z (z : Z) : f64 := Binary.binary_normalize 53 1024 eq_refl eq_refl mode_NE z 0 false.
(** The literal [m * 2^e]. *)
Definition f64_lit (m e : Z) : f64 := Binary.binary_normalize 53 1024 eq_refl eq_refl mode_NE m e false.

Definition f64_add (x y : f64) : f64 := b64_plus mode_NE x y.
Definition f64_sub (x y : f64) : f64 := b64_minus mode_NE x y.
Definition f64_mul (x y : f64) : f64 := b64_mult mode_NE x y.
Definition f64_neg (x : f64) : f64 := b64_opp x.

(** [PartialOrd]/[PartialEq] for [f64]: every comparison with NaN is false, the
    two zeros are equal. *)
Definition f64_cmp (x y : f64) : option comparison := b64_compare x y.
Definition f64_eqb (x y : f64) : bool := match f64_cmp x y with Some Eq => true | _ => false end.
Definition f64_ltb (x y : f64) : bool := match f64_cmp x y with Some Lt => true | _ => false end.
Definition f64_leb (x y : f64) : bool := match f64_cmp x y with Some Lt | Some Eq => true | _ => false end.

Definition f64_is_nan (x : f64) : bool := Binary.is_nan 53 1024 x.
Definition f64_is_finite (x : f64) : bool := Binary.is_finite 53 1024 x.
(** [is_infinite]. *)
Definition f64_is_inf (x : f64) : bool := negb (f64_is_finite x) && negb (f64_is_nan x).

(** [f64::max] and [f64::min]: a NaN argument is ignored. *)
Definition f64_max (x y : f64) : f64 :=
  if f64_is_nan x then y else if f64_is_nan y then x else if f64_ltb x y then y else x.
Definition f64_min (x y : f64) : f64 :=
  if f64_is_nan x then y else if f64_is_nan y then x else if f64_ltb y x then y else x.

(** [x as u64]: truncation, saturating; NaN gives 0. *)
Definition f64_to_u64 (x : f64) : Z :=
  match x with
  | B754_nan _ _ _ _ _ => 0
  | B754_infinity _ _ s => if s then 0 else 2 ^ 64 - 1
  | _ => Z.max 0 (Z.min (2 ^ 64 - 1) (Binary.Btrunc 53 1024 x))
  end.

(** [to_bits] / [from_bits]. *)
Definition f64_bits (x : f64) : Z := bits_of_b64 x.
Definition f64_from_bits (b : Z) : f64 := b64_of_bits b.

(** The real number a finite float stands for. *)
Definition f64R (x : f64) : R := Binary.B2R 53 1024 x.
