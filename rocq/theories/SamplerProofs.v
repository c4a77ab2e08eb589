(** Lemmas for the samplers. *)
From Coq Require Import List NArith ZArith Bool Reals Lia Lra.
From Coq Require Import ZifyBool ZifyNat ZifyN.
From Flocq Require Import Core.
From Flocq Require Import IEEE754.Binary.
From Verif Require Import Str ContextModel TraceModel Carrier F64 F64Proofs SamplerModel SamplerSpec.
Import ListNotations.
Local Open Scope Z_scope.

Lemma max0 p : f64_is_nan p = false -> f64_leb (f64_of_Z 1) p = false ->
  f64_is_finite (f64_max p (f64_of_Z 0)) = true /\ f64R (f64_max p (f64_of_Z 0)) = Rmax 0 (f64R p) /\
  (Rmax 0 (f64R p) < 1)%R.
Proof.
  intros Hn H1. destruct (of_Z_exact 0 ltac:(cbn; lia)) as [E0 F0]. destruct (of_Z_exact 1 ltac:(cbn; lia)) as [E1 F1].
  destruct (f64_is_finite p) eqn:Fp.
  - assert (f64R p < 1)%R as Hlt.
    { apply Rnot_le_lt. intros L. rewrite <- E1 in L. apply (leb_fin _ _ F1 Fp) in L. congruence. }
    unfold f64_max. rewrite Hn, (fin_not_nan _ F0). destruct (f64_ltb p (f64_of_Z 0)) eqn:L.
    + apply (ltb_fin _ _ Fp F0) in L. rewrite E0 in L. rewrite E0, Rmax_left by lra. split; [exact F0|]. split; [reflexivity|lra].
    + assert (0 <= f64R p)%R.
      { apply Rnot_lt_le. intros X. rewrite <- E0 in X. apply (ltb_fin _ _ Fp F0) in X. congruence. }
      rewrite Rmax_right by lra. split; [exact Fp|]. split; [reflexivity|lra].
  - destruct p as [s|s|s pl e|s m e b]; try discriminate Fp; try discriminate Hn.
    destruct s; [|discriminate H1]. cbn. rewrite Rmax_left by lra. split; [reflexivity|]. split; [reflexivity|lra].
Qed.

Lemma upper_spec p : f64_is_nan p = false -> f64_leb (f64_of_Z 1) p = false ->
  f64_to_u64 (f64_mul (f64_max p (f64_of_Z 0)) (f64_of_Z (2 ^ 63))) = ratio_bound p /\ 0 <= ratio_bound p < 2 ^ 63.
Proof.
  intros Hn H1. destruct (max0 p Hn H1) as (Fm & Em & Hlt).
  set (m := f64_max p (f64_of_Z 0)) in *.
  assert (f64R (f64_of_Z (2 ^ 63)) = bpow radix2 63 /\ f64_is_finite (f64_of_Z (2 ^ 63)) = true) as [E2 F2].
  { split; [|reflexivity]. cbv -[IZR Rmult Rinv]. change (bpow radix2 63) with (IZR (2 ^ 63)).
    rewrite <- mult_IZR. reflexivity. }
  assert (0 <= Rmax 0 (f64R p))%R as H0 by apply Rmax_l.
  assert (in_range (f64R m * f64R (f64_of_Z (2 ^ 63)))) as Hr.
  { unfold in_range. rewrite E2, Em, Rabs_pos_eq.
    - apply Rlt_trans with (1 * bpow radix2 63)%R; [apply Rmult_lt_compat_r; [apply bpow_gt_0|exact Hlt]|].
      rewrite Rmult_1_l. apply bpow_lt. reflexivity.
    - apply Rmult_le_pos; [exact H0|apply bpow_ge_0]. }
  destruct (mul_exact m (f64_of_Z (2 ^ 63)) Fm F2) as [Ex Fx]; [|exact Hr|].
  { rewrite E2. apply fmt_scale; [apply fmt_f64|lia]. }
  rewrite E2, Em in Ex. set (x := f64_mul m (f64_of_Z (2 ^ 63))) in *.
  assert (0 <= Rmax 0 (f64R p) * bpow radix2 63)%R as Hpos by (apply Rmult_le_pos; [exact H0|apply bpow_ge_0]).
  assert (0 <= ratio_bound p < 2 ^ 63) as Hb.
  { unfold ratio_bound. split; [apply Zfloor_lub; exact Hpos|].
    apply lt_IZR. apply Rle_lt_trans with (1 := Zfloor_lb _).
    change (IZR (2 ^ 63)) with (bpow radix2 63). rewrite <- (Rmult_1_l (bpow radix2 63)) at 2.
    apply Rmult_lt_compat_r; [apply bpow_gt_0|exact Hlt]. }
  split; [|exact Hb].
  assert (Btrunc 53 1024 x = ratio_bound p) as Et by (rewrite trunc_R, Ex; apply Ztrunc_floor, Hpos).
  clearbody x. unfold f64_to_u64. destruct x as [s|s|s pl e|s mm e b]; try discriminate Fx; rewrite Et; lia.
Qed.

Lemma shiftr_low t : Z.of_N (N.shiftr (t mod 2 ^ 64) 1) = Z.of_N (t mod 2 ^ 64) / 2.
Proof. rewrite N.shiftr_div_pow2, N2Z.inj_div. reflexivity. Qed.

Lemma half_lt w b : w / 2 < b <-> w < 2 * b.
Proof. split; intros; [pose proof (Z.div_mod w 2 ltac:(lia)); pose proof (Z.mod_pos_bound w 2 ltac:(lia)); lia|]. apply Z.div_lt_upper_bound; lia. Qed.

Lemma sample_spec p t : f64_is_nan p = false -> f64_leb (f64_of_Z 1) p = false ->
  sample_prob p t = RecordAndSample <-> Z.of_N (t mod 2 ^ 64) < 2 * ratio_bound p.
Proof.
  intros Hn H1. unfold sample_prob. rewrite H1. cbv zeta. destruct (upper_spec p Hn H1) as [-> _].
  rewrite shiftr_low. rewrite <- half_lt. destruct (Z.ltb_spec (Z.of_N (t mod 2 ^ 64) / 2) (ratio_bound p)).
  - split; auto.
  - split; [discriminate|lia].
Qed.

Lemma sample_nan p t : f64_is_nan p = true -> sample_prob p t = Drop.
Proof.
  intros H. destruct p as [s|s|s pl e|s m e b]; try discriminate H. unfold sample_prob.
  change (f64_leb (f64_of_Z 1) (B754_nan 53 1024 s pl e)) with false. cbv zeta.
  change (f64_max (B754_nan 53 1024 s pl e) (f64_of_Z 0)) with (f64_of_Z 0).
  change (f64_to_u64 (f64_mul (f64_of_Z 0) (f64_of_Z (2 ^ 63)))) with 0.
  destruct (Z.ltb_spec (Z.of_N (N.shiftr (t mod 2 ^ 64) 1)) 0); [lia|reflexivity].
Qed.

Lemma sample_two p t : sample_prob p t = RecordAndSample \/ sample_prob p t = Drop.
Proof.
  unfold sample_prob. destruct (f64_leb _ _); [auto|]. cbv zeta. destruct (_ <? _); auto.
Qed.

(** [leb] is transitive through 1. *)
Lemma leb_not_nan x y : f64_leb x y = true -> f64_is_nan x = false /\ f64_is_nan y = false.
Proof. unfold f64_leb, f64_cmp, Bits.b64_compare. destruct x, y; cbn; auto; discriminate. Qed.

Lemma leb_cases x y : f64_leb x y = true ->
  (f64_is_finite x = true /\ f64_is_finite y = true /\ (f64R x <= f64R y)%R) \/
  x = B754_infinity 53 1024 true \/ y = B754_infinity 53 1024 false.
Proof.
  intros H. destruct (leb_not_nan _ _ H) as [Nx Ny].
  destruct (f64_is_finite x) eqn:Fx, (f64_is_finite y) eqn:Fy.
  - left. repeat split. apply (leb_fin x y Fx Fy), H.
  - destruct y as [s|s|s pl e|s m e b]; try discriminate. destruct s; [|auto].
    destruct x as [s|s|s pl e|s m e b]; discriminate.
  - destruct x as [s|s|s pl e|s m e b]; try discriminate. destruct s; [auto|].
    destruct y as [s|s|s pl e|s m e b]; discriminate.
  - destruct x as [s|s|s pl e|s m e b]; try discriminate; destruct y as [s'|s'|s' pl' e'|s' m' e' b']; try discriminate.
    destruct s; [auto|]. destruct s'; [discriminate|auto].
Qed.

Lemma sample_mono p q t : f64_leb p q = true -> sample_prob p t = RecordAndSample -> sample_prob q t = RecordAndSample.
Proof.
  intros Hpq Hp. destruct (leb_not_nan _ _ Hpq) as [Np Nq].
  destruct (f64_leb (f64_of_Z 1) q) eqn:H1q; [unfold sample_prob; rewrite H1q; reflexivity|].
  assert (f64_leb (f64_of_Z 1) p = false) as H1p.
  { apply not_true_iff_false. intros H1p. apply not_true_iff_false in H1q. apply H1q.
    destruct (leb_cases _ _ Hpq) as [(Fp & Fq & L)|[->| ->]]; [|discriminate|reflexivity].
    destruct (of_Z_exact 1 ltac:(cbn; lia)) as [E1 F1]. apply (leb_fin _ _ F1 Fq).
    apply (leb_fin _ _ F1 Fp) in H1p. lra. }
  apply (sample_spec p t Np H1p) in Hp. apply (sample_spec q t Nq H1q).
  assert (ratio_bound p <= ratio_bound q); [|lia].
  destruct (leb_cases _ _ Hpq) as [(Fp & Fq & L)|[->| ->]]; [| |discriminate H1q].
  - unfold ratio_bound. apply Zfloor_le, Rmult_le_compat_r; [apply bpow_ge_0|]. apply Rle_max_compat_l, L.
  - destruct (upper_spec q Nq H1q) as [_ Hb]. unfold ratio_bound at 1. cbn. rewrite Rmax_left by lra.
    rewrite Rmult_0_l. rewrite (Zfloor_IZR 0). lia.
Qed.

Lemma sample_nonpositive p t : f64_leb p (f64_of_Z 0) = true -> sample_prob p t = Drop.
Proof.
  intros H. destruct (leb_not_nan _ _ H) as [Np _].
  destruct (of_Z_exact 0 ltac:(cbn; lia)) as [E0 F0]. destruct (of_Z_exact 1 ltac:(cbn; lia)) as [E1 F1].
  assert ((f64R p <= 0)%R /\ f64_leb (f64_of_Z 1) p = false) as [H0 H1].
  { destruct (leb_cases _ _ H) as [(Fp & _ & L)|[->|X]].
    - rewrite E0 in L. split; [exact L|]. apply not_true_iff_false. rewrite (leb_fin _ _ F1 Fp), E1. lra.
    - split; [cbn; lra|reflexivity].
    - discriminate. }
  destruct (sample_two p t) as [Hs|Hs]; [|exact Hs]. apply (sample_spec p t Np H1) in Hs.
  unfold ratio_bound in Hs. rewrite Rmax_left, Rmult_0_l, (Zfloor_IZR 0) in Hs by exact H0. lia.
Qed.

(** * Token bucket *)

Definition bucket_is (b : bucket) (t : tokens) : Prop :=
  holds (lb_rate b) (tk_rate t) /\ holds (lb_available b) (tk_available t) /\ holds (lb_size b) (tk_size t) /\
  lb_last b = tk_last t.
Definition tk_ok (t : tokens) : Prop :=
  0 <= tk_rate t < 2 ^ 31 /\ 0 <= tk_available t <= tk_size t /\ tk_size t <= 2 ^ 53.

Lemma lb_refines b t now : bucket_is b t -> tk_ok t -> now - tk_last t < 2 ^ 53 * 10 ^ 9 ->
  let (ok, b') := lb_check b now in let (ok', t') := tk_poll t now in
  ok = ok' /\ bucket_is b' t' /\ tk_ok t'.
Proof.
  intros (Hr & Ha & Hs & Hl) (Or & Oa & Os) Hnow. unfold lb_check, tk_poll.
  pose proof (holds_of_Z 1 ltac:(cbn; lia)) as H1.
  rewrite (holds_leb _ _ 1 (tk_available t) H1 Ha). destruct (Z.leb_spec 1 (tk_available t)) as [L1|L1].
  - split; [reflexivity|]. split.
    + unfold bucket_is. cbn. split; [exact Hr|]. split; [apply holds_sub; auto; lia|]. auto.
    + unfold tk_ok; cbn; lia.
  - rewrite Hl. destruct (Z.ltb_spec now (tk_last t)) as [L2|L2].
    + split; [reflexivity|]. split; [|unfold tk_ok; lia]. unfold bucket_is. auto.
    + cbv zeta. set (secs := (now - tk_last t) / 10 ^ 9).
      assert (0 <= secs <= 2 ^ 53) as Hsecs.
      { unfold secs. split; [apply Z.div_pos; lia|]. apply Z.lt_le_incl, Z.div_lt_upper_bound; lia. }
      assert (holds (f64_min (f64_add (f64_mul (f64_of_Z secs) (lb_rate b)) (lb_available b)) (lb_size b))
                (Z.min (secs * tk_rate t + tk_available t) (tk_size t))) as Hm.
      { assert (holds (f64_of_Z secs) secs) as Hsc by (apply holds_of_Z; lia).
        assert (tk_available t = 0) as Ea by lia.
        destruct (Z.le_gt_cases (secs * tk_rate t) (2 ^ 53)) as [Hp|Hp].
        - apply holds_min; [|exact Hs]. apply holds_add; [|exact Ha|lia]. apply holds_mul; auto. lia.
        - assert (big (f64_mul (f64_of_Z secs) (lb_rate b)) /\
                  (f64R (f64_mul (f64_of_Z secs) (lb_rate b)) <= bpow radix2 84)%R) as [Hbig Hub].
          { destruct Hsc as [Fs Es], Hr as [Fr Er].
            assert (f64R (f64_of_Z secs) * f64R (lb_rate b) = IZR (secs * tk_rate t))%R as Ep by (rewrite Es, Er, mult_IZR; reflexivity).
            assert (IZR (secs * tk_rate t) <= bpow radix2 84)%R as Hu.
            { change (bpow radix2 84) with (IZR (2 ^ 84)). apply IZR_le.
              apply Z.le_trans with (2 ^ 53 * 2 ^ 31); [apply Z.mul_le_mono_nonneg; lia|]. vm_compute. discriminate. }
            split.
            - apply (mul_big _ _ 84); [exact Fs|exact Fr|rewrite Ep; apply IZR_le; lia|lia|rewrite Ep; exact Hu].
            - unfold f64_mul, Bits.b64_mult.
              pose proof (Bmult_correct 53 1024 eq_refl eq_refl Bits.binop_nan_pl64 BinarySingleNaN.mode_NE (f64_of_Z secs) (lb_rate b)) as G.
              fold (f64R (f64_of_Z secs)) (f64R (lb_rate b)) in G. rewrite Ep in G.
              assert (Rabs (round radix2 (SpecFloat.fexp 53 1024) (BinarySingleNaN.round_mode BinarySingleNaN.mode_NE) (IZR (secs * tk_rate t))) <= bpow radix2 84)%R as Hr84.
              { assert (generic_format radix2 (SpecFloat.fexp 53 1024) (bpow radix2 84)) as F84
                  by (apply generic_format_bpow; unfold SpecFloat.fexp, SpecFloat.emin; lia).
                assert (Rabs (IZR (secs * tk_rate t)) <= bpow radix2 84)%R as Hu2
                  by (rewrite Rabs_pos_eq; [exact Hu|apply IZR_le; lia]).
                apply abs_round_le_generic; first [exact F84 | exact Hu2 | apply (fexp_correct 53 1024 eq_refl) |
                  apply BinarySingleNaN.valid_rnd_round_mode]. }
              rewrite Rlt_bool_true in G; [|apply Rle_lt_trans with (1 := Hr84); apply bpow_lt; lia].
              destruct G as [G _]. unfold f64R at 1. rewrite G. apply Rle_trans with (2 := Hr84), Rle_abs. }
          rewrite Z.min_r by lia. destruct Ha as [Fa EA]. rewrite Ea in EA. destruct Hbig as [Fb Bb].
          apply big_min; [|exact Hs|lia]. apply (add_big _ _ 84); [exact Fb|exact Fa|rewrite EA; lra|lia|rewrite EA; lra]. }
      rewrite (holds_leb _ _ 1 _ H1 Hm).
      assert (0 <= secs * tk_rate t) as Hpos by (apply Z.mul_nonneg_nonneg; lia).
      destruct (Z.leb_spec 1 (Z.min (secs * tk_rate t + tk_available t) (tk_size t))) as [L3|L3].
      * split; [reflexivity|]. split; [|unfold tk_ok; cbn; lia].
        unfold bucket_is. cbn. split; [exact Hr|]. split; [apply holds_sub; auto; lia|]. auto.
      * split; [reflexivity|]. split; [|unfold tk_ok; cbn; lia]. unfold bucket_is. cbn. auto.
Qed.

Lemma tk_bound t now ok t' : tk_ok t -> tk_poll t now = (ok, t') -> tk_last t <= now ->
  tk_last t <= tk_last t' <= now /\ tk_rate t' = tk_rate t /\ tk_size t' = tk_size t /\
  (if ok then 1 else 0) + tk_available t' <= tk_available t + tk_rate t * ((tk_last t' - tk_last t) / 10 ^ 9).
Proof.
  intros (Or & Oa & Os). unfold tk_poll. destruct (Z.leb_spec 1 (tk_available t)).
  - intros H1 Hn. injection H1 as <- <-. cbn [tk_last tk_rate tk_size tk_available]. rewrite Z.sub_diag, Z.div_0_l by lia. lia.
  - destruct (Z.ltb_spec now (tk_last t)); [lia|]. cbv zeta. intros H1 Hn.
    destruct (Z.leb_spec 1 (Z.min ((now - tk_last t) / 10 ^ 9 * tk_rate t + tk_available t) (tk_size t)));
      injection H1 as <- <-; cbn [tk_last tk_rate tk_size tk_available];
      rewrite (Z.mul_comm (tk_rate t)); set (q := (now - tk_last t) / 10 ^ 9 * tk_rate t) in *; clearbody q; lia.
Qed.

Lemma div_add_le a b c : 0 < c -> a / c + b / c <= (a + b) / c.
Proof.
  intros Hc. apply Z.div_le_lower_bound; [exact Hc|].
  pose proof (Z.mul_div_le a c Hc). pose proof (Z.mul_div_le b c Hc). lia.
Qed.

Lemma admitted_bound times : forall b t t0, bucket_is b t -> tk_ok t -> t0 <= tk_last t -> forall T,
  forward t0 times -> (forall x, In x times -> tk_last t <= x <= T) -> T < t0 + 2 ^ 53 * 10 ^ 9 -> tk_last t <= T ->
  fst (admitted b times) <= tk_available t + tk_rate t * ((T - tk_last t) / 10 ^ 9).
Proof.
  induction times as [|x r IH]; intros b t t0 Hb Ht H0 T Hf Hin HT HlT.
  - cbn. destruct Ht as (Or & Oa & _). assert (0 <= (T - tk_last t) / 10 ^ 9) by (apply Z.div_pos; lia). nia.
  - cbn [admitted]. destruct Hf as [Hf1 Hf2].
    pose proof (Hin x (or_introl eq_refl)) as Hx.
    pose proof (lb_refines b t x Hb Ht ltac:(lia)) as G.
    destruct (lb_check b x) as [ok b']. destruct (tk_poll t x) as [ok' t'] eqn:Ep. destruct G as (<- & Hb' & Ht').
    destruct (tk_bound t x ok t' Ht Ep ltac:(lia)) as (L1 & Er & Es & L2).
    assert (fst (admitted b' r) <= tk_available t' + tk_rate t' * ((T - tk_last t') / 10 ^ 9)) as Hi.
    { apply (IH b' t' t0); auto; [lia| |intros y Hy|lia].
      - clear -Hf1 Hf2. destruct r as [|y r]; [exact I|]. destruct Hf2. split; [lia|assumption].
      - assert (tk_last t' <= x) by lia. specialize (Hin y (or_intror Hy)). split; [|lia].
        clear -Hf2 Hy H. revert x H Hf2. induction r as [|z r IH]; intros x H Hf2; [destruct Hy|].
        destruct Hf2 as [A B]. destruct Hy as [->|Hy]; [lia|]. apply (IH Hy z); [lia|exact B]. }
    destruct (admitted b' r) as [n b'']. cbn [fst] in *. rewrite Er in Hi.
    pose proof (div_add_le (tk_last t' - tk_last t) (T - tk_last t') (10 ^ 9) ltac:(lia)) as Hd.
    replace (tk_last t' - tk_last t + (T - tk_last t')) with (T - tk_last t) in Hd by lia.
    destruct Ht as (Or & _). nia.
Qed.

(** Polled at intervals below a second, the bucket never refills. *)
Lemma tk_starved t now ok t' : tk_ok t -> tk_poll t now = (ok, t') -> tk_last t <= now < tk_last t + 10 ^ 9 ->
  (if ok then 1 else 0) + tk_available t' <= tk_available t.
Proof.
  intros Ht H Hn. destruct (tk_bound t now ok t' Ht H ltac:(lia)) as (L1 & _ & _ & L2).
  rewrite Z.div_small in L2 by lia. lia.
Qed.
