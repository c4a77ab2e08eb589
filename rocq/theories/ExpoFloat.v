(** What [frexp] and [get_bin] compute, in terms of real numbers. *)
From Coq Require Import List Bool Arith NArith ZArith Lia Reals Lra ZifyBool ZifyNat ZifyN.
From Flocq Require Import Core IEEE754.BinarySingleNaN IEEE754.Binary IEEE754.Bits.
From Verif Require Import F64 F64Proofs ExpoModel ExpoProofs.
Import ListNotations.
Local Open Scope Z_scope.

(** ** Bits *)
Lemma land_mask b : 0 <= b < 2 ^ 63 -> Z.land b 0x800fffffffffffff = b mod 2 ^ 52.
Proof.
  intros H. change 0x800fffffffffffff with (Z.lor (2 ^ 63) (Z.ones 52)).
  rewrite Z.land_lor_distr_r, Z.land_ones by lia.
  assert (Z.land b (2 ^ 63) = 0) as ->; [|reflexivity].
  apply Z.bits_inj'. intros n Hn. rewrite Z.land_spec, Z.bits_0, Z.pow2_bits_eqb by lia.
  destruct (Z.eqb_spec 63 n) as [<-|]; [|apply andb_false_r].
  rewrite andb_true_r. apply Z.testbit_false; [lia|]. rewrite Z.div_small by exact H. reflexivity.
Qed.
Lemma lor_shift m e : 0 <= m < 2 ^ 52 -> Z.lor m (e * 2 ^ 52) = e * 2 ^ 52 + m.
Proof.
  intros H. assert (Z.land m (e * 2 ^ 52) = 0) as L; [|rewrite <- Z.lxor_lor, <- Z.add_nocarry_lxor by exact L; lia].
  apply Z.bits_inj'. intros n Hn. rewrite Z.land_spec, Z.bits_0.
  destruct (Z.lt_ge_cases n 52).
  - rewrite Z.mul_pow2_bits_low by lia. apply andb_false_r.
  - replace (Z.testbit m n) with false; [reflexivity|]. symmetry. apply Z.testbit_false; [lia|].
    rewrite Z.div_small; [reflexivity|]. split; [lia|]. apply Z.lt_le_trans with (2 ^ 52); [lia|]. apply Z.pow_le_mono_r; lia.
Qed.
Lemma exponent_of e m : 0 <= m < 2 ^ 52 -> 0 <= e < 2 ^ 11 -> Z.land (Z.shiftr (e * 2 ^ 52 + m) 52) 0x7ff = e.
Proof.
  intros Hm He. rewrite Z.shiftr_div_pow2 by lia. change 0x7ff with (Z.ones 11). rewrite Z.land_ones by lia.
  rewrite Z.div_add_l, Z.div_small by lia. rewrite Z.add_0_r. apply Z.mod_small, He.
Qed.

Lemma from_bits_R m e : 0 <= m < 2 ^ 52 -> 0 < e < 2047 ->
  f64R (f64_from_bits (e * 2 ^ 52 + m)) = (IZR (m + 2 ^ 52) * bpow radix2 (e - 1075))%R /\
  f64_is_finite (f64_from_bits (e * 2 ^ 52 + m)) = true.
Proof.
  intros Hm He. unfold f64R, f64_is_finite, f64_from_bits, b64_of_bits, binary_float_of_bits.
  rewrite B2R_FF2B, is_finite_FF2B. unfold binary_float_of_bits_aux.
  pose proof (split_join_bits 52 11 false m e ltac:(lia) ltac:(lia)) as S.
  unfold join_bits in S. rewrite Z.shiftl_mul_pow2 in S by lia. cbn [Z.add] in S.
  change (0 + e) with e in S. rewrite S.
  replace (Zbool.Zeq_bool e 0) with false by (symmetry; apply Zeq_is_eq_bool_false || (destruct (Zbool.Zeq_bool e 0) eqn:Q; [apply Zeq_bool_eq in Q; lia|reflexivity])).
  destruct (Zeq_bool e (2 ^ 11 - 1)) eqn:Q; [apply Zeq_bool_eq in Q; lia|].
  destruct (m + 2 ^ 52) as [|p|p] eqn:P; try lia.
  cbn [FF2R cond_Zopp is_finite_FF]. split; [|reflexivity]. unfold F2R. cbn [Fnum Fexp].
  do 2 f_equal. change (SpecFloat.emin (52 + 1) (2 ^ (11 - 1))) with (-1074). lia.
Qed.

(** ** Positive floats *)
Lemma pos_cases x : f64_is_finite x = true -> (0 < f64R x)%R ->
  exists mx ex H, x = B754_finite 53 1024 false mx ex H /\ -1074 <= ex <= 971 /\ Z.pos mx < 2 ^ 53 /\
    (2 ^ 52 <= Z.pos mx \/ (ex = -1074 /\ Z.pos mx < 2 ^ 52)).
Proof.
  intros F P. destruct x as [s|s|s pl Hp|s mx ex H]; try discriminate F.
  - cbn in P. lra.
  - destruct s.
    + exfalso. assert (f64R (B754_finite 53 1024 true mx ex H) < 0)%R; [|lra].
      unfold f64R. cbn. apply F2R_lt_0. reflexivity.
    + exists mx, ex, H. split; [reflexivity|].
      pose proof H as B. unfold SpecFloat.bounded, SpecFloat.canonical_mantissa in B.
      apply andb_prop in B as [B1 B2]. apply Zeq_bool_eq in B1. apply Zle_bool_imp_le in B2.
      unfold SpecFloat.fexp in B1. change (SpecFloat.emin 53 1024) with (-1074) in B1.
      rewrite Digits.Zpos_digits2_pos in B1.
      pose proof (Digits.Zdigits_correct radix2 (Z.pos mx)) as D. cbn [Z.abs] in D. change (radix_val radix2) with 2 in D.
      pose proof (Digits.Zdigits_gt_0 radix2 (Z.pos mx) ltac:(lia)) as G.
      set (dg := Digits.Zdigits radix2 (Z.pos mx)) in *.
      assert (dg <= 53) as D53 by lia.
      assert (2 ^ dg <= 2 ^ 53) as L by (apply Z.pow_le_mono_r; lia).
      split; [lia|]. split; [lia|].
      destruct (Z.eq_dec dg 53) as [E|E]; [left; rewrite E in D; cbn in D |- *; lia|].
      right. split; [lia|]. assert (2 ^ dg <= 2 ^ 52) by (apply Z.pow_le_mono_r; lia). lia.
Qed.
Lemma fin_R mx ex H : f64R (B754_finite 53 1024 false mx ex H) = (IZR (Z.pos mx) * bpow radix2 ex)%R.
Proof. reflexivity. Qed.

Lemma bits_pos mx ex H : f64_bits (B754_finite 53 1024 false mx ex H) =
  if 2 ^ 52 <=? Z.pos mx then (ex + 1075) * 2 ^ 52 + (Z.pos mx - 2 ^ 52) else Z.pos mx.
Proof.
  unfold f64_bits, bits_of_b64, bits_of_binary_float. cbv zeta.
  change (SpecFloat.emin (52 + 1) (2 ^ (11 - 1))) with (-1074).
  destruct (Z.leb_spec 0 (Z.pos mx - 2 ^ 52)); destruct (Z.leb_spec (2 ^ 52) (Z.pos mx)); try lia;
    unfold join_bits; rewrite Z.shiftl_mul_pow2 by lia; lia.
Qed.

Record is_frexp (r : R) (f : f64) (e : Z) : Prop := {
  fr_fin : f64_is_finite f = true;
  fr_lo : (/ 2 <= f64R f)%R;
  fr_hi : (f64R f < 1)%R;
  fr_eq : r = (f64R f * bpow radix2 e)%R }.

Lemma frexp_normal_spec mx ex H : 2 ^ 52 <= Z.pos mx < 2 ^ 53 -> -1074 <= ex <= 971 ->
  exponent_bits (B754_finite 53 1024 false mx ex H) = ex + 1075 /\
  is_frexp (f64R (B754_finite 53 1024 false mx ex H)) (fst (frexp_normal (B754_finite 53 1024 false mx ex H)))
    (snd (frexp_normal (B754_finite 53 1024 false mx ex H))) /\
  snd (frexp_normal (B754_finite 53 1024 false mx ex H)) = ex + 53.
Proof.
  intros Hm He. set (x := B754_finite 53 1024 false mx ex H).
  assert (f64_bits x = (ex + 1075) * 2 ^ 52 + (Z.pos mx - 2 ^ 52)) as Bx.
  { unfold x. rewrite bits_pos. replace (2 ^ 52 <=? Z.pos mx) with true by lia. reflexivity. }
  assert (exponent_bits x = ex + 1075) as Ex by (unfold exponent_bits; rewrite Bx; apply exponent_of; lia).
  split; [exact Ex|].
  unfold frexp_normal. rewrite Ex, Bx. cbn [fst snd].
  rewrite land_mask by lia. rewrite Z.add_comm, Z.mod_add, Z.mod_small by lia.
  change 0x3fe0000000000000 with (0x3fe * 2 ^ 52). rewrite lor_shift by lia.
  destruct (from_bits_R (Z.pos mx - 2 ^ 52) 0x3fe ltac:(lia) ltac:(lia)) as [R1 F1].
  set (f := f64_from_bits _) in *. split; [|lia].
  replace (Z.pos mx - 2 ^ 52 + 2 ^ 52) with (Z.pos mx) in R1 by lia.
  change (0x3fe - 1075) with (-53) in R1.
  assert (bpow radix2 52 <= IZR (Z.pos mx) < bpow radix2 53)%R as [M1 M2].
  { change (bpow radix2 52) with (IZR (2 ^ 52)). change (bpow radix2 53) with (IZR (2 ^ 53)). split; [apply IZR_le|apply IZR_lt]; lia. }
  pose proof (bpow_gt_0 radix2 (-53)) as P53.
  split.
  - exact F1.
  - rewrite R1. change (/ 2)%R with (bpow radix2 (52 + -53)). rewrite bpow_plus. apply Rmult_le_compat_r; lra.
  - rewrite R1. change 1%R with (bpow radix2 (53 + -53)). rewrite bpow_plus. apply Rmult_lt_compat_r; lra.
  - rewrite R1. unfold x. rewrite fin_R, Rmult_assoc, <- bpow_plus. do 2 f_equal. lia.
Qed.

Lemma eqb_zero x : f64_is_finite x = true -> f64_eqb x (f64_of_Z 0) = true <-> f64R x = 0%R.
Proof.
  intros F. destruct (of_Z_exact 0 ltac:(cbn; lia)) as [E1 E2]. rewrite (eqb_fin x (f64_of_Z 0) F E2), E1. reflexivity.
Qed.

Lemma frexp_spec x : f64_is_finite x = true -> (0 < f64R x)%R ->
  exists f e, frexp x = (f, e) /\ is_frexp (f64R x) f e /\ -1073 <= e <= 1024 /\ ((bpow radix2 (-1022) <= f64R x)%R -> -1021 <= e).
Proof.
  intros F P. destruct (pos_cases x F P) as (mx & ex & H & -> & He & Hm & [Hn|[-> Hs]]).
  - destruct (frexp_normal_spec mx ex H ltac:(lia) He) as (E1 & E2 & E3).
    unfold frexp. rewrite E1. replace (ex + 1075 =? 0) with false by lia. replace (ex + 1075 =? 0x7ff) with false by lia.
    destruct (frexp_normal _) as [f e]. cbn [fst snd] in *. exists f, e. split; [reflexivity|]. split; [exact E2|]. split; [lia|].
    intros _. lia.
  - unfold frexp. assert (exponent_bits (B754_finite 53 1024 false mx (-1074) H) = 0) as ->.
    { unfold exponent_bits. rewrite bits_pos. replace (2 ^ 52 <=? Z.pos mx) with false by lia.
      apply (exponent_of 0 (Z.pos mx)); lia. }
    cbn [Z.eqb].
    assert (f64_eqb (B754_finite 53 1024 false mx (-1074) H) (f64_of_Z 0) = false) as ->.
    { apply not_true_is_false. rewrite eqb_zero by exact F. lra. }
    destruct (from_bits_R 0 0x43f ltac:(lia) ltac:(lia)) as [R1 F1].
    change (0x43f * 2 ^ 52 + 0) with 0x43f0000000000000 in *.
    assert (f64R (f64_from_bits 0x43f0000000000000) = bpow radix2 64) as R2.
    { rewrite R1. change (IZR (0 + 2 ^ 52)) with (bpow radix2 52). rewrite <- bpow_plus. reflexivity. }
    set (x := B754_finite 53 1024 false mx (-1074) H) in *.
    assert (Rm : (f64R x * bpow radix2 64 = IZR (Z.pos mx) * bpow radix2 (-1010))%R).
    { unfold x. rewrite fin_R, Rmult_assoc, <- bpow_plus. reflexivity. }
    assert (IZR (Z.pos mx) < bpow radix2 52)%R as M2.
    { change (bpow radix2 52) with (IZR (2 ^ 52)). apply IZR_lt. lia. }
    assert (1 <= IZR (Z.pos mx))%R as M1 by (apply IZR_le; lia).
    destruct (mul_exact x (f64_from_bits 0x43f0000000000000) F F1) as [R3 F3].
    { rewrite R2. apply fmt_scale; [apply fmt_f64|lia]. }
    { unfold in_range. rewrite R2, Rm, Rabs_pos_eq by (pose proof (bpow_gt_0 radix2 (-1010)); nra).
      apply Rlt_trans with (bpow radix2 52 * bpow radix2 (-1010))%R.
      - apply Rmult_lt_compat_r; [apply bpow_gt_0|exact M2].
      - rewrite <- bpow_plus. apply bpow_lt. lia. }
    rewrite R2, Rm in R3.
    set (y := f64_mul x (f64_from_bits 0x43f0000000000000)) in *.
    pose proof (bpow_gt_0 radix2 (-1010)) as P10.
    assert (0 < f64R y)%R as Py by (rewrite R3; nra).
    destruct (pos_cases y F3 Py) as (my & ey & Hy & Ey & Hey & Hmy & Hc).
    assert (bpow radix2 (-1010) <= f64R y < bpow radix2 (-958))%R as [Y1 Y2].
    { rewrite R3. split; [nra|]. change (-958) with (52 + -1010). rewrite bpow_plus. apply Rmult_lt_compat_r; assumption. }
    assert (IZR (Z.pos my) < bpow radix2 53)%R as My2.
    { change (bpow radix2 53) with (IZR (2 ^ 53)). apply IZR_lt. lia. }
    assert (2 ^ 52 <= Z.pos my) as Hny.
    { destruct Hc as [Hc|[-> Hc]]; [exact Hc|]. exfalso.
      assert (f64R y < bpow radix2 (53 + -1074))%R.
      { rewrite Ey, fin_R, bpow_plus. apply Rmult_lt_compat_r; [apply bpow_gt_0|exact My2]. }
      assert (bpow radix2 (53 + -1074) < bpow radix2 (-1010))%R by (apply bpow_lt; lia). lra. }
    destruct (frexp_normal_spec my ey Hy ltac:(lia) Hey) as (E1 & E2 & E3). rewrite <- Ey in E1, E2, E3.
    destruct (frexp_normal y) as [f e]. cbn [fst snd] in *. subst e.
    assert (is_frexp (f64R x) f (ey + 53 - 64)) as Fx.
    { destruct E2 as [G1 G2 G3 G4]. split; try assumption.
      replace (ey + 53 - 64) with (ey + 53 + -64) by lia. rewrite bpow_plus, <- Rmult_assoc, <- G4, R3, Rmult_assoc, <- bpow_plus. reflexivity. }
    exists f, (ey + 53 - 64). split; [reflexivity|]. split; [exact Fx|].
    destruct E2 as [G1 G2 G3 G4].
    assert (-1010 < ey + 53) as Lo.
    { apply (lt_bpow radix2). apply Rle_lt_trans with (f64R y); [exact Y1|]. rewrite G4. pose proof (bpow_gt_0 radix2 (ey + 53)). nra. }
    assert (ey + 53 <= -958) as Hi.
    { assert (ey + 53 - 1 < -958); [|lia]. apply (lt_bpow radix2). apply Rle_lt_trans with (f64R y); [|exact Y2].
      rewrite G4. replace (ey + 53 - 1) with (-1 + (ey + 53)) by lia. rewrite bpow_plus. pose proof (bpow_gt_0 radix2 (ey + 53)).
      change (bpow radix2 (-1)) with (/ 2)%R. nra. }
    split; [lia|]. intros C. exfalso.
    change (-1022) with (52 + -1074) in C. apply (Rle_not_lt _ _ C).
    unfold x. rewrite fin_R, bpow_plus. apply Rmult_lt_compat_r; [apply bpow_gt_0|exact M2].
Qed.

Lemma half_R : f64R half = (/ 2)%R /\ f64_is_finite half = true.
Proof. split; [|reflexivity]. unfold f64R. cbn. unfold F2R. cbn. lra. Qed.
Lemma eqb_half f : f64_is_finite f = true -> f64_eqb f half = true <-> f64R f = (/ 2)%R.
Proof. intros F. destruct half_R as [H1 H2]. rewrite (eqb_fin f half F H2), H1. reflexivity. Qed.

(** ** Bins at scales up to 0 *)
Definition pow2_bin (r : R) (k : Z) : Prop := (bpow radix2 k < r <= bpow radix2 (k + 1))%R.

Lemma get_bin_nonpos ln x : f64_is_finite x = true -> (0 < f64R x)%R ->
  exists k, pow2_bin (f64R x) k /\ -1075 <= k <= 1023 /\ ((bpow radix2 (-1022) <= f64R x)%R -> -1023 <= k) /\
    forall s, s <= 0 -> get_bin ln s x = Z.shiftr k (- s).
Proof.
  intros F P. destruct (frexp_spec x F P) as (f & e & E & [F1 F2 F3 F4] & He & Hn).
  exists (e - (if f64_eqb f half then 2 else 1)).
  split; [|split; [|split]].
  - unfold pow2_bin. rewrite F4. pose proof (bpow_gt_0 radix2 e) as Be.
    destruct (f64_eqb f half) eqn:Eh.
    + apply eqb_half in Eh; [|exact F1]. rewrite Eh. change (/ 2)%R with (bpow radix2 (-1)). rewrite <- bpow_plus.
      split; [apply bpow_lt; lia|apply bpow_le; lia].
    + assert (f64R f <> / 2)%R as Nh by (intros C; apply eqb_half in C; [congruence|exact F1]).
      replace (e - 1) with (-1 + e) by lia. replace (-1 + e + 1) with e by lia. rewrite bpow_plus.
      change (bpow radix2 (-1)) with (/ 2)%R. split.
      * apply Rmult_lt_compat_r; [exact Be|]. lra.
      * apply Rlt_le. rewrite <- (Rmult_1_l (bpow radix2 e)) at 2. apply Rmult_lt_compat_r; assumption.
  - destruct (f64_eqb f half); lia.
  - intros C. specialize (Hn C). destruct (f64_eqb f half); lia.
  - intros s Hs. unfold get_bin. rewrite E. replace (s <=? 0) with true by lia. reflexivity.
Qed.

(** ** Bins at positive scales *)
(** What is needed of [f64::ln] on [1/2, 1): the product with LOG2_E is -1 for 1/2,
    strictly between -1 and 0 for other arguments, and not smaller than 2^-60 in
    magnitude (the exact value is at least 2^-53). *)
Definition ln_ok (ln : f64 -> f64) : Prop := forall f, f64_is_finite f = true -> (/ 2 <= f64R f < 1)%R ->
  f64_is_finite (ln f) = true /\ f64_is_finite (f64_mul (ln f) LOG2_E) = true /\
  (f64R f = / 2 -> f64R (f64_mul (ln f) LOG2_E) = -1)%R /\
  (/ 2 < f64R f -> -1 < f64R (f64_mul (ln f) LOG2_E))%R /\
  (f64R (f64_mul (ln f) LOG2_E) <= - bpow radix2 (-60))%R.

Notation rnd r := (round radix2 (SpecFloat.fexp 53 1024) (BinarySingleNaN.round_mode mode_NE) r).

Lemma rnd_scale r k : (bpow radix2 (-1022) <= Rabs r)%R -> 0 <= k -> rnd (r * bpow radix2 k)%R = (rnd r * bpow radix2 k)%R.
Proof.
  intros Hr Hk. change (SpecFloat.fexp 53 1024) with (FLT_exp (-1074) 53).
  assert (r <> 0%R) as Nz. { intros ->. rewrite Rabs_R0 in Hr. pose proof (bpow_gt_0 radix2 (-1022)). lra. }
  rewrite !round_FLT_FLX.
  - unfold round, F2R, scaled_mantissa, cexp, FLX_exp. rewrite mag_mult_bpow by exact Nz. cbn [Fnum Fexp].
    rewrite (Rmult_assoc r), <- bpow_plus. replace (k + - (mag radix2 r + k - 53)) with (- (mag radix2 r - 53)) by lia.
    rewrite Rmult_assoc, <- bpow_plus. do 2 f_equal. lia.
  - exact Hr.
  - rewrite Rabs_mult, (Rabs_pos_eq (bpow radix2 k)) by apply bpow_ge_0.
    assert (1 <= bpow radix2 k)%R as K by (change 1%R with (bpow radix2 0); apply bpow_le, Hk).
    change (-1074 + 53 - 1) with (-1022). pose proof (bpow_gt_0 radix2 (-1022)). nra.
Qed.

Lemma lit_pow2 s : 0 <= s <= 20 -> f64R (f64_lit 1 s) = bpow radix2 s /\ f64_is_finite (f64_lit 1 s) = true.
Proof.
  intros H. unfold f64R, f64_lit, f64_is_finite.
  pose proof (Binary.binary_normalize_correct 53 1024 eq_refl eq_refl mode_NE 1 s false) as G.
  rewrite F2R_bpow in G. change (round radix2 _ _ ?x) with (rnd x) in G.
  assert (fmt (bpow radix2 s)) as Fm. { rewrite <- (Rmult_1_l (bpow radix2 s)). apply fmt_scale; [apply (fmt_Z 1)|]; cbn; lia. }
  rewrite (round_fmt _ Fm) in G. rewrite Rlt_bool_true in G.
  - destruct G as (G1 & G2 & _). auto.
  - rewrite Rabs_pos_eq by apply bpow_ge_0. apply bpow_lt. lia.
Qed.
Lemma LOG2_E_R : f64R LOG2_E = (IZR 6497320848556798 * bpow radix2 (-52))%R /\ f64_is_finite LOG2_E = true.
Proof.
  unfold f64R, LOG2_E, f64_lit, f64_is_finite.
  pose proof (Binary.binary_normalize_correct 53 1024 eq_refl eq_refl mode_NE 6497320848556798 (-52) false) as G.
  unfold F2R in G. cbn [Fnum Fexp] in G. change (round radix2 _ _ ?x) with (rnd x) in G.
  assert (fmt (IZR 6497320848556798 * bpow radix2 (-52))) as Fm.
  { apply (generic_format_FLT radix2 (SpecFloat.emin 53 1024) 53).
    apply (FLT_spec _ _ _ _ (Float radix2 6497320848556798 (-52))); cbn; [reflexivity|lia|lia]. }
  rewrite (round_fmt _ Fm) in G. rewrite Rlt_bool_true in G.
  - destruct G as (G1 & G2 & _). auto.
  - rewrite Rabs_pos_eq by (apply Rmult_le_pos; [apply IZR_le; lia|apply bpow_ge_0]).
    apply Rlt_trans with (bpow radix2 53 * bpow radix2 (-52))%R; [apply Rmult_lt_compat_r; [apply bpow_gt_0|change (bpow radix2 53) with (IZR (2 ^ 53)); apply IZR_lt; lia]|].
    rewrite <- bpow_plus. apply bpow_lt. lia.
Qed.
Lemma scale_factor_R s : 0 <= s <= 20 -> f64R (scale_factor s) = (f64R LOG2_E * bpow radix2 s)%R /\ f64_is_finite (scale_factor s) = true.
Proof.
  intros H. destruct (lit_pow2 s H) as [L1 L2]. destruct LOG2_E_R as [E1 E2].
  destruct (mul_exact LOG2_E (f64_lit 1 s) E2 L2) as [M1 M2].
  - rewrite L1. apply fmt_scale; [apply fmt_f64|lia].
  - unfold in_range. rewrite L1, E1, Rabs_pos_eq.
    2: { apply Rmult_le_pos; [apply Rmult_le_pos; [apply IZR_le; lia|apply bpow_ge_0]|apply bpow_ge_0]. }
    rewrite Rmult_assoc, <- bpow_plus.
    apply Rlt_le_trans with (bpow radix2 53 * bpow radix2 (-52 + s))%R; [apply Rmult_lt_compat_r; [apply bpow_gt_0|change (bpow radix2 53) with (IZR (2 ^ 53)); apply IZR_lt; lia]|].
    rewrite <- bpow_plus. apply bpow_le. lia.
  - unfold scale_factor. rewrite M1, L1. auto.
Qed.

Lemma mul_R x y : f64_is_finite x = true -> f64_is_finite y = true -> (Rabs (rnd (f64R x * f64R y)%R) < bpow radix2 1024)%R ->
  f64R (f64_mul x y) = rnd (f64R x * f64R y)%R /\ f64_is_finite (f64_mul x y) = true.
Proof.
  intros Hx Hy H. unfold f64_mul, b64_mult.
  match goal with |- context [Binary.Bmult 53 1024 ?a ?b ?c ?m ?x ?y] => pose proof (Binary.Bmult_correct 53 1024 a b c m x y) as G end.
  fold (f64R x) (f64R y) in G. rewrite Rlt_bool_true in G by exact H. destruct G as (G1 & G2 & _).
  unfold f64_is_finite in *. rewrite Hx, Hy in G2. auto.
Qed.
Lemma mul_R_fin x y : f64_is_finite x = true -> f64_is_finite y = true -> f64_is_finite (f64_mul x y) = true ->
  f64R (f64_mul x y) = rnd (f64R x * f64R y)%R.
Proof.
  intros Hx Hy H. unfold f64_mul, b64_mult in *.
  match goal with |- context [Binary.Bmult 53 1024 ?a ?b ?c ?m ?x ?y] => pose proof (Binary.Bmult_correct 53 1024 a b c m x y) as G end.
  fold (f64R x) (f64R y) in G. destruct (Rlt_bool _ _); [destruct G as (G1 & _); exact G1|].
  exfalso. unfold f64_is_finite in H.
  match type of H with Binary.is_finite _ _ ?z = _ => destruct z end; cbn in G; try discriminate.
Qed.

Lemma Zceil_add n r : Zceil (IZR n + r) = n + Zceil r.
Proof.
  apply Zceil_imp. rewrite plus_IZR, minus_IZR, plus_IZR. pose proof (Zceil_ub r). pose proof (Zceil_lb r). split; lra.
Qed.

Lemma to_i32_R z : f64_is_finite z = true -> (- IZR (2 ^ 30) <= f64R z <= 0)%R -> f64_to_i32 z = Zceil (f64R z).
Proof.
  intros F H. assert (f64_to_i32 z = Z.max (- 2 ^ 31) (Z.min (2 ^ 31 - 1) (Binary.Btrunc 53 1024 z))) as -> by (destruct z; try discriminate F; reflexivity).
  rewrite trunc_R, Ztrunc_ceil by lra.
  assert (Zceil (f64R z) <= 0) as U. { apply Zceil_glb. lra. }
  assert (- 2 ^ 30 <= Zceil (f64R z)) as L. { apply le_IZR. apply Rle_trans with (f64R z); [rewrite opp_IZR; lra|apply Zceil_ub]. }
  lia.
Qed.

(** The approximate binary logarithm the bins are computed from. *)
Lemma get_bin_pos ln x : ln_ok ln -> f64_is_finite x = true -> (0 < f64R x)%R ->
  exists f e, is_frexp (f64R x) f e /\ -1073 <= e <= 1024 /\ ((bpow radix2 (-1022) <= f64R x)%R -> -1021 <= e) /\
    (-1 <= f64R (f64_mul (ln f) LOG2_E) < 0)%R /\
    (forall s, 0 <= s <= 20 -> get_bin ln s x = Zceil ((IZR e + f64R (f64_mul (ln f) LOG2_E)) * bpow radix2 s) - 1) /\
    (forall s, s <= 0 -> get_bin ln s x = Z.shiftr (Zceil (IZR e + f64R (f64_mul (ln f) LOG2_E)) - 1) (- s)).
Proof.
  intros Hln F P. destruct (frexp_spec x F P) as (f & e & E & Fr & He & Hn). exists f, e. split; [exact Fr|]. split; [exact He|]. split; [exact Hn|].
  destruct Fr as [F1 F2 F3 F4]. destruct (Hln f F1 (conj F2 F3)) as (L1 & L2 & L3 & L4 & L5).
  set (y := f64_mul (ln f) LOG2_E) in *.
  pose proof (bpow_gt_0 radix2 (-60)) as P60.
  assert (-1 <= f64R y < 0)%R as Hy. { split; [|lra]. destruct F2 as [F2|F2]; [left; exact (L4 F2)|right; symmetry; apply L3; symmetry; exact F2]. }
  split; [exact Hy|].
  assert (forall s, s <= 0 -> get_bin ln s x = Z.shiftr (Zceil (IZR e + f64R y) - 1) (- s)) as Neg.
  { intros s Hs. unfold get_bin. rewrite E. replace (s <=? 0) with true by lia. rewrite Zceil_add.
    destruct (f64_eqb f half) eqn:Eh.
    - apply eqb_half in Eh; [|exact F1]. rewrite (L3 Eh). change (-1)%R with (IZR (-1)). rewrite Zceil_IZR. f_equal. lia.
    - assert (f64R f <> / 2)%R as Nh by (intros C; apply eqb_half in C; [congruence|exact F1]).
      assert (/ 2 < f64R f)%R as Lh by lra. specialize (L4 Lh).
      assert (Zceil (f64R y) = 0) as -> by (apply Zceil_imp; cbn; lra). f_equal. lia. }
  split; [|exact Neg].
  intros s Hs. destruct (Z.eq_dec s 0) as [->|Ns].
  { rewrite (Neg 0) by lia. cbn [Z.opp]. rewrite Z.shiftr_0_r. cbn [bpow]. rewrite Rmult_1_r. reflexivity. }
  unfold get_bin. rewrite E. replace (s <=? 0) with false by lia.
  destruct (scale_factor_R s Hs) as [S1 S2]. destruct LOG2_E_R as [_ E2].
  pose proof (mul_R_fin (ln f) LOG2_E L1 E2 L2) as My. fold y in My.
  assert (bpow radix2 (-1022) <= Rabs (f64R (ln f) * f64R LOG2_E))%R as Big.
  { destruct (Rle_lt_dec (bpow radix2 (-61)) (Rabs (f64R (ln f) * f64R LOG2_E))) as [G|G].
    - apply Rle_trans with (2 := G). apply bpow_le. lia.
    - exfalso. assert (Rabs (f64R y) <= bpow radix2 (-61))%R as C.
      { rewrite My. apply abs_round_le_generic; [apply (fexp_correct 53 1024 eq_refl)|apply BinarySingleNaN.valid_rnd_round_mode| |lra].
        apply generic_format_bpow. cbn. lia. }
      rewrite Rabs_left in C by lra. assert (bpow radix2 (-61) < bpow radix2 (-60))%R by (apply bpow_lt; lia). lra. }
  pose proof (rnd_scale _ s Big ltac:(lia)) as Sc. rewrite <- My in Sc.
  assert (bpow radix2 s <= bpow radix2 20)%R as Bs by (apply bpow_le; lia). pose proof (bpow_gt_0 radix2 s) as Bs0.
  change (bpow radix2 20) with (IZR (2 ^ 20)) in Bs.
  assert (- IZR (2 ^ 30) <= f64R y * bpow radix2 s <= 0)%R as Ry.
  { assert (IZR (2 ^ 20) <= IZR (2 ^ 30))%R by (apply IZR_le; lia). split; nra. }
  destruct (mul_R (ln f) (scale_factor s) L1 S2) as [M1 M2].
  { rewrite S1, <- Rmult_assoc, Sc. rewrite Rabs_left1 by lra.
    apply Rle_lt_trans with (IZR (2 ^ 30)); [lra|]. change (IZR (2 ^ 30)) with (bpow radix2 30). apply bpow_lt. lia. }
  rewrite S1, <- Rmult_assoc, Sc in M1.
  rewrite to_i32_R by (try rewrite M1; assumption). rewrite M1.
  rewrite Rmult_plus_distr_r. rewrite <- IZR_Zpower by lia. rewrite <- mult_IZR, Zceil_add, Z.shiftl_mul_pow2 by lia. rewrite IZR_Zpower by lia.
  change (radix_val radix2) with 2. lia.
Qed.

Lemma ceil_shift a k : 0 <= k -> Z.shiftr (Zceil (a * bpow radix2 k) - 1) k = Zceil a - 1.
Proof.
  intros Hk. rewrite Z.shiftr_div_pow2 by exact Hk. symmetry.
  assert (0 < 2 ^ k) as P by (apply Z.pow_pos_nonneg; lia).
  assert (bpow radix2 k = IZR (2 ^ k)) as Eb by (rewrite <- IZR_Zpower by exact Hk; reflexivity).
  assert (0 < IZR (2 ^ k))%R as PR by (apply IZR_lt; exact P).
  pose proof (Zceil_ub a) as U. pose proof (Zceil_lb a) as L. set (n := Zceil a) in *.
  assert (Zceil (a * bpow radix2 k) <= n * 2 ^ k) as Up.
  { apply Zceil_glb. rewrite Eb, mult_IZR. apply Rmult_le_compat_r; lra. }
  assert ((n - 1) * 2 ^ k < Zceil (a * bpow radix2 k)) as Lo.
  { apply lt_IZR. apply Rlt_le_trans with (a * bpow radix2 k)%R; [|apply Zceil_ub]. rewrite Eb, mult_IZR, minus_IZR. apply Rmult_lt_compat_r; lra. }
  apply Z.div_unique_pos with (Zceil (a * bpow radix2 k) - 1 - (n - 1) * 2 ^ k); nia.
Qed.

(** ** Bins of different scales agree *)
Lemma get_bin_shift ln x s s' : (ln_ok ln \/ s <= 0) -> f64_is_finite x = true -> (0 < f64R x)%R -> s' <= s <= 20 ->
  get_bin ln s' x = Z.shiftr (get_bin ln s x) (s - s').
Proof.
  intros H F P Hs. destruct (Z.le_gt_cases s 0) as [Hs0|Hs0].
  - destruct (get_bin_nonpos ln x F P) as (k & _ & _ & _ & K). rewrite (K s), (K s') by lia.
    rewrite Z.shiftr_shiftr by lia. f_equal. lia.
  - destruct H as [H|H]; [|lia]. destruct (get_bin_pos ln x H F P) as (f & e & _ & _ & _ & _ & K1 & K2).
    set (a := (IZR e + _)%R) in *. rewrite (K1 s) by lia. destruct (Z.le_gt_cases s' 0) as [Hs'|Hs'].
    + rewrite (K2 s' Hs'). replace (s - s') with (s + - s') by lia. rewrite <- Z.shiftr_shiftr by lia. rewrite ceil_shift by lia. reflexivity.
    + rewrite (K1 s') by lia. replace s with (s' + (s - s')) at 1 by lia. rewrite bpow_plus, <- Rmult_assoc, ceil_shift by lia. reflexivity.
Qed.

Lemma get_bin_bounds ln x s : (ln_ok ln \/ s <= 0) -> f64_is_finite x = true -> (0 < f64R x)%R -> s <= 20 ->
  (s <= 19 \/ (bpow radix2 (-1022) <= f64R x)%R) -> -1023 * 2 ^ 20 <= get_bin ln s x < 1024 * 2 ^ 20.
Proof.
  intros H F P Hs Hn. destruct (Z.le_gt_cases s 0) as [Hs0|Hs0].
  - destruct (get_bin_nonpos ln x F P) as (k & _ & Hk & _ & K). rewrite (K s) by lia.
    pose proof (shiftr_in (-1075) 1023 k (- s) ltac:(lia) ltac:(lia) ltac:(lia) Hk). lia.
  - destruct H as [H|H]; [|lia]. destruct (get_bin_pos ln x H F P) as (f & e & _ & He & Hn2 & Hy & K1 & _).
    rewrite (K1 s) by lia. set (y := f64R (f64_mul (ln f) LOG2_E)) in *.
    assert (bpow radix2 s = IZR (2 ^ s)) as Eb by (rewrite <- IZR_Zpower by lia; reflexivity).
    assert (0 < 2 ^ s <= 2 ^ 20) as Ps by (split; [apply Z.pow_pos_nonneg; lia|apply Z.pow_le_mono_r; lia]).
    assert (0 < IZR (2 ^ s))%R as PR by (apply IZR_lt; lia).
    set (a := ((IZR e + y) * bpow radix2 s)%R).
    assert (Zceil a <= e * 2 ^ s) as U. { apply Zceil_glb. unfold a. rewrite Eb, mult_IZR. nra. }
    assert ((e - 1) * 2 ^ s <= Zceil a) as L.
    { apply le_IZR. apply Rle_trans with a; [|apply Zceil_ub]. unfold a. rewrite Eb, mult_IZR, minus_IZR. nra. }
    assert (e * 2 ^ s <= 1024 * 2 ^ s) by (apply Z.mul_le_mono_nonneg_r; lia).
    assert (-1022 * 2 ^ 20 <= (e - 1) * 2 ^ s) as L2.
    { destruct Hn as [Hn|Hn].
      - assert (2 ^ s <= 2 ^ 19) by (apply Z.pow_le_mono_r; lia).
        assert (-1074 * 2 ^ s <= (e - 1) * 2 ^ s) by (apply Z.mul_le_mono_nonneg_r; lia). lia.
      - specialize (Hn2 Hn). assert (-1022 * 2 ^ s <= (e - 1) * 2 ^ s) by (apply Z.mul_le_mono_nonneg_r; lia). lia. }
    lia.
Qed.
