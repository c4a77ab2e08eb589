(** Facts about [F64]. *)
From Coq Require Import ZArith NArith Bool Reals Lia Lra.
From Flocq Require Import Core IEEE754.BinarySingleNaN IEEE754.Binary IEEE754.Bits.
From Flocq Require Import Mult_error.
From Verif Require Import F64.
Local Open Scope Z_scope.

Lemma cmp_fin x y : f64_is_finite x = true -> f64_is_finite y = true ->
  f64_cmp x y = Some (Rcompare (f64R x) (f64R y)).
Proof. apply Binary.Bcompare_correct. Qed.

Lemma leb_fin x y : f64_is_finite x = true -> f64_is_finite y = true ->
  f64_leb x y = true <-> (f64R x <= f64R y)%R.
Proof.
  intros Hx Hy. unfold f64_leb. rewrite cmp_fin by assumption.
  destruct (Rcompare_spec (f64R x) (f64R y)); split; intros; try reflexivity; try discriminate; lra.
Qed.
Lemma ltb_fin x y : f64_is_finite x = true -> f64_is_finite y = true ->
  f64_ltb x y = true <-> (f64R x < f64R y)%R.
Proof.
  intros Hx Hy. unfold f64_ltb. rewrite cmp_fin by assumption.
  destruct (Rcompare_spec (f64R x) (f64R y)); split; intros; try reflexivity; try discriminate; lra.
Qed.
Lemma eqb_fin x y : f64_is_finite x = true -> f64_is_finite y = true ->
  f64_eqb x y = true <-> f64R x = f64R y.
Proof.
  intros Hx Hy. unfold f64_eqb. rewrite cmp_fin by assumption.
  destruct (Rcompare_spec (f64R x) (f64R y)); split; intros; try reflexivity; try discriminate; lra.
Qed.

Lemma cmp_swap x y : f64_cmp y x = option_map CompOpp (f64_cmp x y).
Proof. unfold f64_cmp, b64_compare. rewrite Binary.Bcompare_swap. destruct (Binary.Bcompare _ _ x y); reflexivity. Qed.

(** Integers up to 2^53 in magnitude are represented exactly. *)
Lemma fmt_Z z : Z.abs z <= 2 ^ 53 -> generic_format radix2 (SpecFloat.fexp 53 1024) (IZR z).
Proof.
  intros H. apply (generic_format_FLT radix2 (SpecFloat.emin 53 1024) 53).
  destruct (Z.eq_dec (Z.abs z) (2 ^ 53)) as [E|E].
  - apply (FLT_spec _ _ _ _ (Float radix2 (Z.sgn z) 53)).
    + unfold F2R. cbn [Fnum Fexp]. change (bpow radix2 53) with (IZR (2 ^ 53)). rewrite <- mult_IZR. f_equal.
      rewrite <- E. symmetry. rewrite Z.mul_comm. apply Z.abs_sgn.
    + cbn [Fnum]. destruct z; cbn; reflexivity.
    + cbn [Fexp]. unfold SpecFloat.emin. lia.
  - apply (FLT_spec _ _ _ _ (Float radix2 z 0)).
    + unfold F2R. cbn. ring.
    + cbn [Fnum]. change (radix2 ^ 53) with (2 ^ 53). lia.
    + cbn [Fexp]. unfold SpecFloat.emin. lia.
Qed.

Lemma bpow53 : IZR (2 ^ 53) = bpow radix2 53.
Proof. reflexivity. Qed.

Lemma round_fmt x : generic_format radix2 (SpecFloat.fexp 53 1024) x ->
  round radix2 (SpecFloat.fexp 53 1024) (BinarySingleNaN.round_mode mode_NE) x = x.
Proof. intros H. apply round_generic; [apply BinarySingleNaN.valid_rnd_round_mode|exact H]. Qed.

Lemma of_Z_exact z : Z.abs z <= 2 ^ 53 -> f64R (f64_of_Z z) = IZR z /\ f64_is_finite (f64_of_Z z) = true.
Proof.
  intros H. unfold f64R, f64_of_Z, f64_is_finite.
  pose proof (Binary.binary_normalize_correct 53 1024 eq_refl eq_refl mode_NE z 0 false) as G.
  assert (F2R (Float radix2 z 0) = IZR z) as E by (unfold F2R; cbn; ring).
  rewrite E, round_fmt in G by (apply fmt_Z, H). rewrite Rlt_bool_true in G; [tauto|].
  rewrite <- abs_IZR. apply Rle_lt_trans with (IZR (2 ^ 53)); [apply IZR_le, H|].
  rewrite bpow53. apply bpow_lt. reflexivity.
Qed.

(** Results that are exactly representable and in range are computed exactly. *)
Definition in_range (r : R) : Prop := (Rabs r < bpow radix2 1024)%R.
Definition fmt (r : R) : Prop := generic_format radix2 (SpecFloat.fexp 53 1024) r.

Lemma add_exact x y : f64_is_finite x = true -> f64_is_finite y = true ->
  fmt (f64R x + f64R y) -> in_range (f64R x + f64R y) ->
  f64R (f64_add x y) = (f64R x + f64R y)%R /\ f64_is_finite (f64_add x y) = true.
Proof.
  intros Hx Hy Hf Hr. unfold f64_add, b64_plus.
  pose proof (Binary.Bplus_correct 53 1024 eq_refl eq_refl binop_nan_pl64 mode_NE x y Hx Hy) as G.
  fold (f64R x) (f64R y) in G. rewrite (round_fmt _ Hf), Rlt_bool_true in G by exact Hr. tauto.
Qed.
Lemma sub_exact x y : f64_is_finite x = true -> f64_is_finite y = true ->
  fmt (f64R x - f64R y) -> in_range (f64R x - f64R y) ->
  f64R (f64_sub x y) = (f64R x - f64R y)%R /\ f64_is_finite (f64_sub x y) = true.
Proof.
  intros Hx Hy Hf Hr. unfold f64_sub, b64_minus.
  pose proof (Binary.Bminus_correct 53 1024 eq_refl eq_refl binop_nan_pl64 mode_NE x y Hx Hy) as G.
  fold (f64R x) (f64R y) in G. rewrite (round_fmt _ Hf), Rlt_bool_true in G by exact Hr. tauto.
Qed.
Lemma mul_exact x y : f64_is_finite x = true -> f64_is_finite y = true ->
  fmt (f64R x * f64R y) -> in_range (f64R x * f64R y) ->
  f64R (f64_mul x y) = (f64R x * f64R y)%R /\ f64_is_finite (f64_mul x y) = true.
Proof.
  intros Hx Hy Hf Hr. unfold f64_mul, b64_mult.
  pose proof (Binary.Bmult_correct 53 1024 eq_refl eq_refl binop_nan_pl64 mode_NE x y) as G.
  fold (f64R x) (f64R y) in G. rewrite (round_fmt _ Hf), Rlt_bool_true in G by exact Hr.
  destruct G as (G1 & G2 & _). split; [exact G1|]. unfold f64_is_finite in *. rewrite G2, Hx, Hy. reflexivity.
Qed.

Lemma Z_in_range z : Z.abs z <= 2 ^ 53 -> in_range (IZR z).
Proof.
  intros H. unfold in_range. rewrite <- abs_IZR. apply Rle_lt_trans with (IZR (2 ^ 53)); [apply IZR_le, H|].
  rewrite bpow53. apply bpow_lt. reflexivity.
Qed.

(** [x] holds the integer [z]. *)
Definition holds (x : f64) (z : Z) : Prop := f64_is_finite x = true /\ f64R x = IZR z.

Lemma holds_of_Z z : Z.abs z <= 2 ^ 53 -> holds (f64_of_Z z) z.
Proof. intros H. destruct (of_Z_exact z H). split; assumption. Qed.
Lemma holds_add x y a b : holds x a -> holds y b -> Z.abs (a + b) <= 2 ^ 53 -> holds (f64_add x y) (a + b).
Proof.
  intros [Fx Ex] [Fy Ey] H. destruct (add_exact x y Fx Fy) as [E F].
  - unfold fmt. rewrite Ex, Ey, <- plus_IZR. apply fmt_Z, H.
  - rewrite Ex, Ey, <- plus_IZR. apply Z_in_range, H.
  - split; [exact F|]. rewrite E, Ex, Ey, plus_IZR. reflexivity.
Qed.
Lemma holds_sub x y a b : holds x a -> holds y b -> Z.abs (a - b) <= 2 ^ 53 -> holds (f64_sub x y) (a - b).
Proof.
  intros [Fx Ex] [Fy Ey] H. destruct (sub_exact x y Fx Fy) as [E F].
  - unfold fmt. rewrite Ex, Ey, <- minus_IZR. apply fmt_Z, H.
  - rewrite Ex, Ey, <- minus_IZR. apply Z_in_range, H.
  - split; [exact F|]. rewrite E, Ex, Ey, minus_IZR. reflexivity.
Qed.
Lemma holds_mul x y a b : holds x a -> holds y b -> Z.abs (a * b) <= 2 ^ 53 -> holds (f64_mul x y) (a * b).
Proof.
  intros [Fx Ex] [Fy Ey] H. destruct (mul_exact x y Fx Fy) as [E F].
  - unfold fmt. rewrite Ex, Ey, <- mult_IZR. apply fmt_Z, H.
  - rewrite Ex, Ey, <- mult_IZR. apply Z_in_range, H.
  - split; [exact F|]. rewrite E, Ex, Ey, mult_IZR. reflexivity.
Qed.
Lemma holds_leb x y a b : holds x a -> holds y b -> f64_leb x y = (a <=? b).
Proof.
  intros [Fx Ex] [Fy Ey]. destruct (Z.leb_spec a b) as [L|L].
  - apply (leb_fin x y Fx Fy). rewrite Ex, Ey. apply IZR_le, L.
  - apply not_true_iff_false. rewrite (leb_fin x y Fx Fy), Ex, Ey. apply Rlt_not_le, IZR_lt, L.
Qed.
Lemma holds_ltb x y a b : holds x a -> holds y b -> f64_ltb x y = (a <? b).
Proof.
  intros [Fx Ex] [Fy Ey]. destruct (Z.ltb_spec a b) as [L|L].
  - apply (ltb_fin x y Fx Fy). rewrite Ex, Ey. apply IZR_lt, L.
  - apply not_true_iff_false. rewrite (ltb_fin x y Fx Fy), Ex, Ey. apply Rle_not_lt, IZR_le, L.
Qed.
Lemma fin_not_nan x : f64_is_finite x = true -> f64_is_nan x = false.
Proof. destruct x; cbn; congruence. Qed.
Lemma holds_min x y a b : holds x a -> holds y b -> holds (f64_min x y) (Z.min a b).
Proof.
  intros Hx Hy. unfold f64_min. rewrite (fin_not_nan x), (fin_not_nan y), (holds_ltb y x b a) by firstorder.
  destruct (Z.ltb_spec b a); [rewrite Z.min_r by lia|rewrite Z.min_l by lia]; assumption.
Qed.

(** Multiplication by 2^k (k >= 0) is exact unless it overflows. *)
Lemma fmt_f64 x : fmt (f64R x).
Proof. apply Binary.generic_format_B2R. Qed.
Lemma fmt_scale r k : fmt r -> 0 <= k -> fmt (r * bpow radix2 k).
Proof. intros H Hk. exact (mult_bpow_pos_exact_FLT radix2 (SpecFloat.emin 53 1024) 53 r k H Hk). Qed.

Lemma trunc_R x : Binary.Btrunc 53 1024 x = Ztrunc (f64R x).
Proof.
  apply eq_IZR. rewrite (Binary.Btrunc_correct 53 1024 eq_refl x). unfold round, scaled_mantissa, F2R, cexp.
  cbn. rewrite !Rmult_1_r. reflexivity.
Qed.

(** Rounding to nearest is monotone: a value of at least 2^53 stays so. *)
Definition big (x : f64) : Prop := f64_is_finite x = true /\ (IZR (2 ^ 53) <= f64R x)%R.

Lemma round_ge r : (IZR (2 ^ 53) <= r)%R ->
  (IZR (2 ^ 53) <= round radix2 (SpecFloat.fexp 53 1024) (BinarySingleNaN.round_mode mode_NE) r)%R.
Proof.
  intros H. rewrite <- (round_fmt (IZR (2 ^ 53))) by (apply fmt_Z; cbn; lia).
  apply round_le; [apply (fexp_correct 53 1024 eq_refl)|apply BinarySingleNaN.valid_rnd_round_mode|exact H].
Qed.
Lemma round_in_range r k : 0 <= k -> k < 1024 -> (Rabs r <= bpow radix2 k)%R ->
  in_range (round radix2 (SpecFloat.fexp 53 1024) (BinarySingleNaN.round_mode mode_NE) r).
Proof.
  intros Hk0 Hk H. unfold in_range. apply Rle_lt_trans with (bpow radix2 k); [|apply bpow_lt, Hk].
  assert (fmt (bpow radix2 k)) as F.
  { apply generic_format_bpow. unfold SpecFloat.fexp, SpecFloat.emin. lia. }
  apply abs_round_le_generic; first [exact F | exact H | apply (fexp_correct 53 1024 eq_refl) |
    apply BinarySingleNaN.valid_rnd_round_mode].
Qed.
Lemma mul_big x y k : f64_is_finite x = true -> f64_is_finite y = true ->
  (IZR (2 ^ 53) <= f64R x * f64R y)%R -> 0 <= k < 1024 -> (f64R x * f64R y <= bpow radix2 k)%R ->
  big (f64_mul x y).
Proof.
  intros Hx Hy Hb Hk Hr. unfold f64_mul, b64_mult.
  pose proof (Binary.Bmult_correct 53 1024 eq_refl eq_refl binop_nan_pl64 mode_NE x y) as G.
  fold (f64R x) (f64R y) in G. rewrite Rlt_bool_true in G.
  - destruct G as (G1 & G2 & _). split; [unfold f64_is_finite in *; rewrite G2, Hx, Hy; reflexivity|].
    unfold f64R at 1. rewrite G1. apply round_ge, Hb.
  - apply (round_in_range _ k); [lia|lia|]. rewrite Rabs_pos_eq; [exact Hr|].
    apply Rle_trans with (IZR (2 ^ 53)); [apply IZR_le; lia|exact Hb].
Qed.
Lemma add_big x y k : f64_is_finite x = true -> f64_is_finite y = true ->
  (IZR (2 ^ 53) <= f64R x + f64R y)%R -> 0 <= k < 1024 -> (f64R x + f64R y <= bpow radix2 k)%R ->
  big (f64_add x y).
Proof.
  intros Hx Hy Hb Hk Hr. unfold f64_add, b64_plus.
  pose proof (Binary.Bplus_correct 53 1024 eq_refl eq_refl binop_nan_pl64 mode_NE x y Hx Hy) as G.
  fold (f64R x) (f64R y) in G. rewrite Rlt_bool_true in G.
  - destruct G as (G1 & G2 & _). split; [exact G2|]. unfold f64R at 1. rewrite G1. apply round_ge, Hb.
  - apply (round_in_range _ k); [lia|lia|]. rewrite Rabs_pos_eq; [exact Hr|].
    apply Rle_trans with (IZR (2 ^ 53)); [apply IZR_le; lia|exact Hb].
Qed.
Lemma big_min x y b : big x -> holds y b -> b <= 2 ^ 53 -> holds (f64_min x y) b.
Proof.
  intros [Fx Bx] [Fy Ey] Hb. unfold f64_min. rewrite (fin_not_nan x Fx), (fin_not_nan y Fy).
  destruct (f64_ltb y x) eqn:E; [split; assumption|]. split; [exact Fx|].
  apply Rle_antisym.
  - apply Rnot_lt_le. intros H. rewrite <- Ey in H. apply (ltb_fin y x Fy Fx) in H. congruence.
  - apply Rle_trans with (IZR (2 ^ 53)); [apply IZR_le, Hb|exact Bx].
Qed.
