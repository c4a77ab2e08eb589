(** C48, C49: exponential histograms. *)
From Coq Require Import List Bool Arith NArith ZArith Lia Reals Lra Permutation ZifyBool ZifyNat ZifyN.
From Flocq Require Import Core IEEE754.BinarySingleNaN IEEE754.Binary IEEE754.Bits.
From Verif Require Import F64 F64Proofs ExpoModel ExpoProofs ExpoFloat.
Import ListNotations.
Local Open Scope Z_scope.

Lemma abs_fin x : f64_is_finite (f64_abs x) = f64_is_finite x.
Proof. apply is_finite_Babs. Qed.
Lemma abs_R x : f64R (f64_abs x) = Rabs (f64R x).
Proof. apply B2R_Babs. Qed.

Lemma shiftr_contract a b k : 0 <= k -> a <= b -> Z.shiftr b k - Z.shiftr a k <= b - a.
Proof.
  intros Hk H. rewrite !Z.shiftr_div_pow2 by exact Hk. assert (0 < 2 ^ k) as P by (apply Z.pow_pos_nonneg; lia).
  assert (b / 2 ^ k <= (a + (b - a) * 2 ^ k) / 2 ^ k) as L by (apply Z.div_le_mono; nia).
  rewrite Z.div_add in L by lia. lia.
Qed.

Section expo.
Variable ln : f64 -> f64.
Context {T : Type}.
Variable plus : T -> T -> T.
Variable lt : T -> T -> bool.
Variables zero tmin tmax : T.
Variable into_float : T -> f64.

Notation record := (x_record ln plus lt zero into_float).
Notation call := (x_call ln plus lt zero into_float).
Notation run := (x_run ln plus lt zero into_float).
Notation new := (x_new zero tmin tmax).

(** ** Specification: which values a histogram was given *)
Definition finite (v : T) : bool := f64_is_finite (into_float v).
Definition is_zero (v : T) : bool := Req_bool (f64R (into_float v)) 0.
Definition zeros (vs : list T) := filter is_zero vs.
Definition positives (vs : list T) := filter (fun v => negb (is_zero v) && negb (lt v zero)) vs.
Definition negatives (vs : list T) := filter (fun v => negb (is_zero v) && lt v zero) vs.
Definition magnitude (v : T) : R := Rabs (f64R (into_float v)).
Definition normal (v : T) : Prop := (bpow radix2 (-1022) <= magnitude v)%R.
Definition total (b : ebuckets) : N := fold_right N.add 0%N (eb_counts b).
(** The count reported for bin [i]. *)
Definition count_at (b : ebuckets) (i : Z) : N :=
  if (eb_start b <=? i) && (i <? eb_start b + Z.of_nat (length (eb_counts b))) then nth (Z.to_nat (i - eb_start b)) (eb_counts b) 0%N else 0%N.

Lemma finite_zeros vs : length vs = (length (zeros vs) + length (positives vs) + length (negatives vs))%nat.
Proof using Type. clear plus tmin tmax ln.
  induction vs as [|v vs IH]; [reflexivity|]. unfold zeros, positives, negatives in *. cbn [filter length].
  destruct (is_zero v), (lt v zero); cbn [negb andb length]; lia.
Qed.

Section config.
Variables M S0 : Z.
Variable only_normal : bool.
Definition good (v : T) : Prop :=
  finite v = true /\ (is_zero v = false -> (S0 <= 19 /\ only_normal = false) \/ normal v).
Hypothesis Hln : ln_ok ln \/ S0 <= 0.
Hypothesis HS : -10 <= S0 <= 20.
Hypothesis HM : 1 <= M.

Notation bin_of s v := (get_bin ln s (f64_abs (into_float v))).

Record rep (s : Z) (b : ebuckets) (l : list T) : Prop := {
  rep_tight : tight b;
  rep_len : elen b <= M;
  rep_bins : Permutation (bins b) (map (fun v => bin_of s v) l) }.
(** Two values of the same sign. *)
Definition same_side (vs : list T) (u w : T) : Prop := (In u (positives vs) /\ In w (positives vs)) \/ (In u (negatives vs) /\ In w (negatives vs)).
Record inv (h : @expo T) (vs : list T) : Prop := {
  inv_size : x_max_size h = M;
  inv_scale : -10 <= x_scale h <= S0;
  inv_good : Forall good vs;
  inv_pos : rep (x_scale h) (x_pos h) (positives vs);
  inv_neg : rep (x_scale h) (x_neg h) (negatives vs);
  inv_zero : x_zero h = N.of_nat (length (zeros vs));
  inv_needed : x_scale h < S0 -> exists u w, same_side vs u w /\ M <= bin_of (x_scale h + 1) w - bin_of (x_scale h + 1) u }.

Definition usable (v : T) : Prop := good v /\ is_zero v = false.
Lemma usable_abs v : usable v -> f64_is_finite (f64_abs (into_float v)) = true /\ (0 < f64R (f64_abs (into_float v)))%R.
Proof using Type.
  intros [[F _] Z]. split; [rewrite abs_fin; exact F|]. rewrite abs_R. unfold is_zero in Z.
  destruct (Req_bool_spec (f64R (into_float v)) 0) as [E|E]; [discriminate|]. apply Rabs_pos_lt, E.
Qed.
Lemma usable_shift v s s' : usable v -> s' <= s <= S0 -> bin_of s' v = Z.shiftr (bin_of s v) (s - s').
Proof using Hln HS. clear plus lt zero tmin tmax. intros U Hs. destruct (usable_abs v U). apply get_bin_shift; auto; [|lia]. destruct Hln; [auto|right; lia]. Qed.
Lemma usable_bounds v s : usable v -> s <= S0 -> -1023 * 2 ^ 20 <= bin_of s v < 1024 * 2 ^ 20.
Proof using Hln HS. clear plus lt zero tmin tmax.
  intros U Hs. destruct (usable_abs v U). apply get_bin_bounds; auto; [destruct Hln; [auto|right; lia]|lia|].
  destruct U as [[_ G] Z]. destruct (G Z) as [[G1 _]|G1]; [left; lia|right; rewrite abs_R; exact G1].
Qed.
Lemma usable_lowest v : usable v -> (if only_normal then -1 else -2) <= bin_of (-10) v <= 0.
Proof using Type. clear plus lt zero tmin tmax M Hln HS HM.
  intros U. destruct (usable_abs v U) as [F P]. destruct (get_bin_nonpos ln _ F P) as (k & _ & K1 & K2 & K3).
  rewrite (K3 (-10)) by lia. cbn [Z.opp]. rewrite Z.shiftr_div_pow2 by lia. change (2 ^ 10) with 1024.
  assert (k / 1024 < 1) by (apply Z.div_lt_upper_bound; lia).
  destruct U as [[_ G] Z]. destruct (G Z) as [[_ ->]|G1].
  - assert (-2 <= k / 1024) by (apply Z.div_le_lower_bound; lia). lia.
  - rewrite abs_R in K2. specialize (K2 G1). assert (-1 <= k / 1024) by (apply Z.div_le_lower_bound; lia). destruct only_normal; lia.
Qed.

Lemma in_positives v vs : Forall good vs -> In v (positives vs) -> usable v.
Proof using Type.
  intros G I. apply filter_In in I as [I E]. apply andb_prop in E as [E _]. apply negb_true_iff in E.
  split; [|exact E]. rewrite Forall_forall in G. exact (G v I).
Qed.
Lemma in_negatives v vs : Forall good vs -> In v (negatives vs) -> usable v.
Proof using Type.
  intros G I. apply filter_In in I as [I E]. apply andb_prop in E as [E _]. apply negb_true_iff in E.
  split; [|exact E]. rewrite Forall_forall in G. exact (G v I).
Qed.

Lemma rep_downscale s b l k : s <= S0 -> 0 <= k -> (forall v, In v l -> usable v) -> rep s b l -> rep (s - k) (eb_downscale k b) l.
Proof using Hln HS HM. clear plus lt zero tmin tmax.
  intros Hs Hk Hu [Rt Rl Rb]. split.
  - apply downscale_tight; assumption.
  - destruct (eb_counts b) as [|c cs] eqn:Ec.
    + unfold elen. rewrite downscale_nil by exact Ec. cbn. lia.
    + destruct (downscale_end k b Hk) as (_ & E1 & E2); [rewrite Ec; discriminate|].
      assert (1 <= elen b) by (unfold elen; rewrite Ec; cbn [length]; lia).
      pose proof (shiftr_contract (eb_start b) (eb_start b + elen b - 1) k Hk ltac:(lia)). lia.
  - rewrite downscale_bins by exact Hk. rewrite Rb, map_map.
    assert (map (fun v => Z.shiftr (bin_of s v) k) l = map (fun v => bin_of (s - k) v) l) as ->; [|reflexivity].
    apply map_ext_in. intros v Hv. rewrite (usable_shift v s (s - k)) by (try apply Hu; try lia; assumption). f_equal. lia.
Qed.

Lemma rep_in s b l : rep s b l -> eb_counts b <> [] ->
  exists u w, In u l /\ In w l /\ bin_of s u = eb_start b /\ bin_of s w = eb_start b + elen b - 1.
Proof using Type.
  intros [[E|[T1 T2]] _ Rb] Hne; [contradiction|].
  apply (Permutation_in _ Rb) in T1, T2. apply in_map_iff in T1 as (u & U1 & U2), T2 as (w & W1 & W2). eauto 6.
Qed.

(** Recording into the chosen side. *)
Lemma side_step s b l v : s <= S0 -> -10 <= s -> (forall u, In u l -> usable u) -> usable v -> rep s b l ->
  let bin := bin_of s v in
  let delta := scale_change M bin (eb_start b) (elen b) in
  0 <= delta /\
  ((delta = 0 \/ -10 <= s - delta) ->
    exists b', eb_record (bin_of (s - delta) v) (eb_downscale delta b) = Some b' /\ rep (s - delta) b' (v :: l)) /\
  (0 < delta -> s - delta < -10 -> M <= if only_normal then 1 else 2) /\
  (0 < delta -> exists u w, In u (v :: l) /\ In w (v :: l) /\ M <= bin_of (s - delta + 1) w - bin_of (s - delta + 1) u).
Proof using Hln HS HM. clear plus lt zero tmin tmax.
  intros Hs Hs10 Hu Hv R bin delta.
  assert (-1023 * 2 ^ 20 <= bin < 1024 * 2 ^ 20) as Bb by (apply usable_bounds; assumption).
  pose proof R as [Rt Rl Rb].
  destruct (eb_counts b) as [|c cs] eqn:Ec.
  - assert (delta = 0) as -> by (unfold delta, scale_change, elen; rewrite Ec; reflexivity).
    split; [lia|]. split; [|split; lia]. intros _. replace (s - 0) with s by lia.
    assert (bins b = []) as Bn by (unfold bins; rewrite Ec; reflexivity).
    assert (l = []) as ->. { rewrite Bn in Rb. apply Permutation_nil in Rb. destruct l; [reflexivity|discriminate]. }
    unfold eb_record. rewrite downscale_nil by exact Ec. eexists. split; [reflexivity|]. split.
    + right. unfold bins, elen. cbn. replace (bin_of s v + 1 - 1) with (bin_of s v) by lia. split; left; reflexivity.
    + unfold elen. cbn. lia.
    + unfold bins. cbn. reflexivity.
  - assert (eb_counts b <> []) as Hne by (rewrite Ec; discriminate).
    assert (1 <= elen b) as L1 by (unfold elen; rewrite Ec; cbn [length]; lia).
    destruct (rep_in s b l R Hne) as (u & w & U1 & W1 & U2 & W2).
    pose proof (usable_bounds u s (Hu u U1) Hs) as Bu. pose proof (usable_bounds w s (Hu w W1) Hs) as Bw.
    set (low := if bin <=? eb_start b then bin else eb_start b).
    set (high := if bin <=? eb_start b then eb_start b + elen b - 1 else bin).
    assert (delta = Z.of_nat (sc_loop 31 M low high)) as Ed.
    { unfold delta, scale_change, low, high. replace (elen b =? 0) with false by lia. destruct (bin <=? eb_start b); reflexivity. }
    assert (low <= high) as Hlh by (unfold low, high; destruct (bin <=? eb_start b) eqn:?; lia).
    destruct (sc_loop_spec 31 M (-1023 * 2 ^ 20) (1024 * 2 ^ 20 - 1) ltac:(lia) ltac:(lia) ltac:(lia) low high) as (K1 & K2 & K3).
    { unfold low; destruct (bin <=? eb_start b); lia. } { exact Hlh. } { unfold high; destruct (bin <=? eb_start b); lia. }
    set (k := sc_loop 31 M low high) in *. rewrite Ed. split; [lia|]. split; [|split].
    + intros Hd. assert (k < 31)%nat as Hk by lia. specialize (K2 Hk).
      set (kz := Z.of_nat k) in *. assert (0 <= kz) as Hkz by lia.
      pose proof (rep_downscale s b l kz Hs Hkz Hu R) as R'.
      destruct (downscale_end kz b Hkz Hne) as (N' & S' & E').
      set (b1 := eb_downscale kz b) in *. set (bin' := bin_of (s - kz) v).
      assert (bin' = Z.shiftr bin kz) as Eb'. { unfold bin', bin. rewrite (usable_shift v s (s - kz) Hv) by lia. f_equal. lia. }
      destruct (eb_record_spec bin' b1 (-1023 * 2 ^ 20) (1024 * 2 ^ 20 - 1)) as (b' & B1 & B2 & B3 & B4 & B5).
      { apply R'. }
      { intros x Hx. apply (Permutation_in _ (rep_bins _ _ _ R')) in Hx. apply in_map_iff in Hx as (z & <- & Hz).
        pose proof (usable_bounds z (s - kz) (Hu z Hz) ltac:(lia)). lia. }
      { pose proof (usable_bounds v (s - kz) Hv ltac:(lia)) as G. fold bin' in G. lia. }
      { lia. } { lia. } { lia. }
      exists b'. split; [exact B1|]. split; [exact B3| |].
      * destruct (eb_counts b1) as [|c1 cs1] eqn:Ec1; [congruence|]. rewrite B5, E', S', Eb'.
        pose proof (shiftr_contract (eb_start b) (eb_start b + elen b - 1) kz Hkz ltac:(lia)) as Ct.
        pose proof (shiftr_mono (eb_start b) (eb_start b + elen b - 1) kz Hkz ltac:(lia)) as Mo.
        unfold low, high in K2. destruct (bin <=? eb_start b) eqn:Eo.
        -- pose proof (shiftr_mono bin (eb_start b) kz Hkz ltac:(lia)). lia.
        -- pose proof (shiftr_mono (eb_start b) bin kz Hkz ltac:(lia)). lia.
      * cbn [map]. rewrite B2. fold bin'. apply perm_skip. apply R'.
    + intros _ Hd. specialize (K3 (Z.to_nat (s + 10)) ltac:(lia)). rewrite Z2Nat.id in K3 by lia.
      assert (forall z, usable z -> (if only_normal then -1 else -2) <= Z.shiftr (bin_of s z) (s + 10) <= 0) as Lw.
      { intros z Hz. pose proof (usable_lowest z Hz) as G. rewrite (usable_shift z s (-10) Hz) in G by lia. replace (s - -10) with (s + 10) in G by lia. exact G. }
      pose proof (Lw v Hv) as Gv. fold bin in Gv. pose proof (Lw u (Hu u U1)) as Gu. pose proof (Lw w (Hu w W1)) as Gw. rewrite U2 in Gu. rewrite W2 in Gw.
      unfold low, high in K3. destruct (bin <=? eb_start b), only_normal; lia.
    + intros Hd. specialize (K3 (k - 1)%nat ltac:(lia)). replace (Z.of_nat (k - 1)) with (Z.of_nat k - 1) in K3 by lia.
      assert (forall z, usable z -> Z.shiftr (bin_of s z) (Z.of_nat k - 1) = bin_of (s - Z.of_nat k + 1) z) as Sh.
      { intros z Hz. rewrite (usable_shift z s (s - Z.of_nat k + 1) Hz) by lia. f_equal. lia. }
      unfold low, high in K3. destruct (bin <=? eb_start b).
      * exists v, w. split; [left; reflexivity|]. split; [right; exact W1|]. rewrite <- W2 in K3. unfold bin in K3. rewrite !Sh in K3 by auto. exact K3.
      * exists u, v. split; [right; exact U1|]. split; [left; reflexivity|]. rewrite <- U2 in K3. unfold bin in K3. rewrite !Sh in K3 by auto. exact K3.
Qed.
Lemma same_side_cons v vs u w : same_side vs u w -> same_side (v :: vs) u w.
Proof using Type.
  unfold same_side, positives, negatives. cbn [filter]. intros [[H1 H2]|[H1 H2]]; [left|right]; destruct (_ && _); split; try right; assumption.
Qed.
Lemma needed_cons s v vs : (s < S0 -> exists u w, same_side vs u w /\ M <= bin_of (s + 1) w - bin_of (s + 1) u) ->
  s < S0 -> exists u w, same_side (v :: vs) u w /\ M <= bin_of (s + 1) w - bin_of (s + 1) u.
Proof using Type. intros H Hs. destruct (H Hs) as (u & w & H1 & H2). exists u, w. split; [apply same_side_cons, H1|exact H2]. Qed.

Definition basics (h h' : @expo T) (v : T) : Prop :=
  x_count h' = (x_count h + 1)%N /\ x_sum h' = plus (x_sum h) v /\
  x_min h' = (if lt v (x_min h) then v else x_min h) /\ x_max h' = (if lt (x_max h) v then v else x_max h).

Lemma downscale_0 b : eb_downscale 0 b = b.
Proof using Type. unfold eb_downscale. rewrite orb_true_r, Z.shiftr_0_r. destruct b; reflexivity. Qed.

Lemma record_step h vs v : inv h vs -> good v ->
  exists h', record h v = Some h' /\ basics h h' v /\ x_scale h' <= x_scale h /\
    (inv h' (v :: vs) \/ ((M <= if only_normal then 1 else 2) /\ inv h' vs)).
Proof using Hln HS HM. clear tmin tmax.
  intros [Is Isc Ig Ip In_ Iz Iw] Gv. unfold record.
  destruct (is_zero v) eqn:Ez.
  - assert (f64_eqb (f64_abs (into_float v)) (f64_of_Z 0) = true) as ->.
    { destruct Gv as [F _]. apply eqb_zero; [rewrite abs_fin; exact F|]. rewrite abs_R.
      unfold is_zero in Ez. destruct (Req_bool_spec (f64R (into_float v)) 0) as [E|E]; [rewrite E; apply Rabs_R0|discriminate]. }
    eexists. split; [reflexivity|]. split; [repeat split|]. cbn. split; [lia|]. left.
    assert (positives (v :: vs) = positives vs) as E1 by (unfold positives; cbn [filter]; rewrite Ez; reflexivity).
    assert (negatives (v :: vs) = negatives vs) as E2 by (unfold negatives; cbn [filter]; rewrite Ez; reflexivity).
    assert (zeros (v :: vs) = v :: zeros vs) as E3 by (unfold zeros; cbn [filter]; rewrite Ez; reflexivity).
    split; cbn [x_max_size x_scale x_pos x_neg x_zero]; try assumption; [constructor; assumption|rewrite E1; assumption|rewrite E2; assumption|rewrite E3; cbn [length]; lia|apply needed_cons, Iw].
  - assert (usable v) as Uv by (split; assumption).
    assert (f64_eqb (f64_abs (into_float v)) (f64_of_Z 0) = false) as ->.
    { destruct (usable_abs v Uv) as [F P]. apply not_true_is_false. rewrite eqb_zero by exact F. lra. }
    cbv zeta.
    assert (zeros (v :: vs) = zeros vs) as E3 by (unfold zeros; cbn [filter]; rewrite Ez; reflexivity).
    rewrite Is. destruct (lt v zero) eqn:El.
    + assert (positives (v :: vs) = positives vs) as E1 by (unfold positives; cbn [filter]; rewrite Ez, El; reflexivity).
      assert (negatives (v :: vs) = v :: negatives vs) as E2 by (unfold negatives; cbn [filter]; rewrite Ez, El; reflexivity).
      destruct (side_step (x_scale h) (x_neg h) (negatives vs) v ltac:(lia) ltac:(lia) (fun u => in_negatives u vs Ig) Uv In_) as (D0 & D1 & D2 & D3).
      set (delta := scale_change M (bin_of (x_scale h) v) (eb_start (x_neg h)) (elen (x_neg h))) in *.
      destruct ((0 <? delta) && (x_scale h - delta <? EXPO_MIN_SCALE)) eqn:Eu.
      * apply andb_prop in Eu as [Eu1 Eu2]. unfold EXPO_MIN_SCALE in Eu2. eexists. split; [reflexivity|]. split; [repeat split|]. cbn. split; [lia|].
        right. split; [apply D2; lia|]. split; cbn [x_max_size x_scale x_pos x_neg x_zero]; first [assumption|reflexivity].
      * unfold EXPO_MIN_SCALE in Eu. destruct D1 as (b' & B1 & B2); [destruct (0 <? delta) eqn:E0; cbn [andb] in Eu; lia|].
        destruct (0 <? delta) eqn:E0.
        -- rewrite B1. eexists. split; [reflexivity|]. split; [repeat split|]. cbn. split; [lia|]. left.
           split; cbn [x_max_size x_scale x_pos x_neg x_zero]; [reflexivity|lia|constructor; assumption| |rewrite E2; exact B2|rewrite E3; exact Iz|
             intros _; destruct (D3 ltac:(lia)) as (u & w & U & W & H); exists u, w; split; [right; rewrite E2; auto|exact H]].
           rewrite E1. apply rep_downscale; [lia|lia|exact (fun u => in_positives u vs Ig)|exact Ip].
        -- assert (delta = 0) as Ed by lia. rewrite Ed in B1, B2. replace (x_scale h - 0) with (x_scale h) in * by lia. rewrite downscale_0 in B1. rewrite B1.
           eexists. split; [reflexivity|]. split; [repeat split|]. cbn. split; [lia|]. left.
           split; cbn [x_max_size x_scale x_pos x_neg x_zero]; [reflexivity|lia|constructor; assumption|rewrite E1; exact Ip|rewrite E2; exact B2|rewrite E3; exact Iz|apply needed_cons, Iw].
    + assert (positives (v :: vs) = v :: positives vs) as E1 by (unfold positives; cbn [filter]; rewrite Ez, El; reflexivity).
      assert (negatives (v :: vs) = negatives vs) as E2 by (unfold negatives; cbn [filter]; rewrite Ez, El; reflexivity).
      destruct (side_step (x_scale h) (x_pos h) (positives vs) v ltac:(lia) ltac:(lia) (fun u => in_positives u vs Ig) Uv Ip) as (D0 & D1 & D2 & D3).
      set (delta := scale_change M (bin_of (x_scale h) v) (eb_start (x_pos h)) (elen (x_pos h))) in *.
      destruct ((0 <? delta) && (x_scale h - delta <? EXPO_MIN_SCALE)) eqn:Eu.
      * apply andb_prop in Eu as [Eu1 Eu2]. unfold EXPO_MIN_SCALE in Eu2. eexists. split; [reflexivity|]. split; [repeat split|]. cbn. split; [lia|].
        right. split; [apply D2; lia|]. split; cbn [x_max_size x_scale x_pos x_neg x_zero]; first [assumption|reflexivity].
      * unfold EXPO_MIN_SCALE in Eu. destruct D1 as (b' & B1 & B2); [destruct (0 <? delta) eqn:E0; cbn [andb] in Eu; lia|].
        destruct (0 <? delta) eqn:E0.
        -- rewrite B1. eexists. split; [reflexivity|]. split; [repeat split|]. cbn. split; [lia|]. left.
           split; cbn [x_max_size x_scale x_pos x_neg x_zero]; [reflexivity|lia|constructor; assumption|rewrite E1; exact B2| |rewrite E3; exact Iz|
             intros _; destruct (D3 ltac:(lia)) as (u & w & U & W & H); exists u, w; split; [left; rewrite E1; auto|exact H]].
           rewrite E2. apply rep_downscale; [lia|lia|exact (fun u => in_negatives u vs Ig)|exact In_].
        -- assert (delta = 0) as Ed by lia. rewrite Ed in B1, B2. replace (x_scale h - 0) with (x_scale h) in * by lia. rewrite downscale_0 in B1. rewrite B1.
           eexists. split; [reflexivity|]. split; [repeat split|]. cbn. split; [lia|]. left.
           split; cbn [x_max_size x_scale x_pos x_neg x_zero]; [reflexivity|lia|constructor; assumption|rewrite E1; exact B2|rewrite E2; exact In_|rewrite E3; exact Iz|apply needed_cons, Iw].
Qed.

Definition admissible (v : T) : Prop := finite v = true -> good v.

Lemma run_inv vs : forall h kept, inv h kept -> Forall admissible vs ->
  exists h' kept', run h vs = Some h' /\ inv h' (kept' ++ kept) /\ incl kept' (filter finite vs) /\
    (length kept' <= length (filter finite vs))%nat /\
    x_count h' = (x_count h + N.of_nat (length (filter finite vs)))%N /\
    x_scale h' <= x_scale h /\
    ((if only_normal then 2 else 3) <= M -> kept' = rev (filter finite vs)).
Proof using Hln HS HM. clear tmin tmax.
  induction vs as [|v vs IH]; intros h kept I A; cbn [x_run].
  - exists h, []. cbn. repeat split; try apply I; try lia. intros x [].
  - inversion A as [|? ? A1 A2]; subst. unfold x_call. cbn [filter]. unfold admissible in A1. destruct (finite v) eqn:Ef; unfold finite in Ef; rewrite Ef.
    + destruct (record_step h kept v I (A1 eq_refl)) as (h1 & R1 & (C1 & _) & Sc & Cs). rewrite R1.
      destruct Cs as [I1|[Sm I1]].
      * destruct (IH h1 (v :: kept) I1 A2) as (h2 & k2 & R2 & I2 & In2 & L2 & C2 & S2 & K2).
        exists h2, (k2 ++ [v]). split; [exact R2|]. rewrite <- app_assoc. split; [exact I2|].
        split; [intros x Hx; apply in_app_or in Hx as [Hx|[->|[]]]; [right; apply In2, Hx|left; reflexivity]|].
        rewrite app_length. cbn [length]. split; [lia|]. split; [lia|]. split; [lia|].
        intros H. cbn [rev]. rewrite (K2 H). reflexivity.
      * destruct (IH h1 kept I1 A2) as (h2 & k2 & R2 & I2 & In2 & L2 & C2 & S2 & K2).
        exists h2, k2. split; [exact R2|]. split; [exact I2|].
        split; [intros x Hx; right; apply In2, Hx|]. cbn [length]. split; [lia|]. split; [lia|]. split; [lia|].
        intros H. destruct only_normal; lia.
    + apply IH; assumption.
Qed.

Lemma new_inv : inv (new M S0) [].
Proof using HS HM. clear plus Hln.
  split; cbn; try reflexivity; try lia; try constructor; try (left; reflexivity); try (unfold elen; cbn; lia); reflexivity.
Qed.
Lemma rep_total s b l : rep s b l -> total b = N.of_nat (length l).
Proof using Type. clear plus tmin tmax lt zero S0 only_normal Hln HS HM.
  intros [_ _ Rb]. apply Permutation_length in Rb. unfold bins in Rb. rewrite expand_length, map_length in Rb. unfold total. lia.
Qed.
End config.
End expo.

(** ** C48 *)
(** With room for three buckets nothing is lost, unless numbers below 2^-1022 are
    recorded into a histogram of maximum scale 20. *)
Theorem C48_counts_conserved : forall (ln : f64 -> f64) (T : Type) (plus : T -> T -> T) (lt : T -> T -> bool) (zero tmin tmax : T)
    (into_float : T -> f64) (max_size max_scale : Z) (vs : list T),
  (ln_ok ln \/ max_scale <= 0) -> -10 <= max_scale <= 20 -> 3 <= max_size ->
  (max_scale = 20 -> forall v, In v vs -> finite into_float v = true -> is_zero into_float v = true \/ normal into_float v) ->
  exists h, x_run ln plus lt zero into_float (x_new zero tmin tmax max_size max_scale) vs = Some h /\
    elen (x_pos h) <= max_size /\ elen (x_neg h) <= max_size /\ -10 <= x_scale h <= max_scale /\
    x_count h = N.of_nat (length (filter (finite into_float) vs)) /\
    (x_zero h + total (x_pos h) + total (x_neg h) = x_count h)%N.
Proof.
  intros ln T plus lt zero tmin tmax into_float M S0 vs Hln HS HM Hn.
  destruct (run_inv ln plus lt zero into_float M S0 false Hln HS ltac:(lia) vs (x_new zero tmin tmax M S0) []) as (h & kept & R & I & _ & _ & C & _ & K).
  - apply new_inv; lia.
  - apply Forall_forall. intros v Iv F. split; [exact F|]. intros Z.
    destruct (Z.eq_dec S0 20) as [E|E]; [|left; lia]. destruct (Hn E v Iv F) as [C|C]; [congruence|right; exact C].
  - exists h. split; [exact R|]. specialize (K HM). rewrite app_nil_r, K in I. cbn [x_count x_new] in C. rewrite N.add_0_l in C.
    split; [apply I|]. split; [apply I|]. split; [apply I|]. split; [exact C|].
    rewrite (inv_zero _ _ _ _ _ _ _ _ _ I), (rep_total _ _ _ _ _ _ (inv_pos _ _ _ _ _ _ _ _ _ I)), (rep_total _ _ _ _ _ _ (inv_neg _ _ _ _ _ _ _ _ _ I)).
    pose proof (finite_zeros lt zero into_float (rev (filter (finite into_float) vs))) as L. rewrite rev_length in L. lia.
Qed.
Print Assumptions C48_counts_conserved.

(** Two buckets are enough when every number is zero or at least 2^-1022 in magnitude. *)
Theorem C48_two_buckets_suffice_for_normal_numbers : forall (ln : f64 -> f64) (T : Type) (plus : T -> T -> T) (lt : T -> T -> bool) (zero tmin tmax : T)
    (into_float : T -> f64) (max_size max_scale : Z) (vs : list T),
  (ln_ok ln \/ max_scale <= 0) -> -10 <= max_scale <= 20 -> 2 <= max_size ->
  (forall v, In v vs -> finite into_float v = true -> is_zero into_float v = true \/ normal into_float v) ->
  exists h, x_run ln plus lt zero into_float (x_new zero tmin tmax max_size max_scale) vs = Some h /\
    elen (x_pos h) <= max_size /\ elen (x_neg h) <= max_size /\ -10 <= x_scale h <= max_scale /\
    x_count h = N.of_nat (length (filter (finite into_float) vs)) /\
    (x_zero h + total (x_pos h) + total (x_neg h) = x_count h)%N.
Proof.
  intros ln T plus lt zero tmin tmax into_float M S0 vs Hln HS HM Hn.
  destruct (run_inv ln plus lt zero into_float M S0 true Hln HS ltac:(lia) vs (x_new zero tmin tmax M S0) []) as (h & kept & R & I & _ & _ & C & _ & K).
  - apply new_inv; lia.
  - apply Forall_forall. intros v Iv F. split; [exact F|]. intros Z.
    destruct (Hn v Iv F) as [C|C]; [congruence|right; exact C].
  - exists h. split; [exact R|]. specialize (K HM). rewrite app_nil_r, K in I. cbn [x_count x_new] in C. rewrite N.add_0_l in C.
    split; [apply I|]. split; [apply I|]. split; [apply I|]. split; [exact C|].
    rewrite (inv_zero _ _ _ _ _ _ _ _ _ I), (rep_total _ _ _ _ _ _ (inv_pos _ _ _ _ _ _ _ _ _ I)), (rep_total _ _ _ _ _ _ (inv_neg _ _ _ _ _ _ _ _ _ I)).
    pose proof (finite_zeros lt zero into_float (rev (filter (finite into_float) vs))) as L. rewrite rev_length in L. lia.
Qed.
Print Assumptions C48_two_buckets_suffice_for_normal_numbers.

(** For every positive size limit: no panic, the limits hold, and the buckets never
    count more than was recorded. *)
Theorem C48_limits_hold : forall (ln : f64 -> f64) (T : Type) (plus : T -> T -> T) (lt : T -> T -> bool) (zero tmin tmax : T)
    (into_float : T -> f64) (max_size max_scale : Z) (vs : list T),
  (ln_ok ln \/ max_scale <= 0) -> -10 <= max_scale <= 20 -> 1 <= max_size ->
  (max_scale = 20 -> forall v, In v vs -> finite into_float v = true -> is_zero into_float v = true \/ normal into_float v) ->
  exists h, x_run ln plus lt zero into_float (x_new zero tmin tmax max_size max_scale) vs = Some h /\
    elen (x_pos h) <= max_size /\ elen (x_neg h) <= max_size /\ -10 <= x_scale h <= max_scale /\
    x_count h = N.of_nat (length (filter (finite into_float) vs)) /\
    (x_zero h + total (x_pos h) + total (x_neg h) <= x_count h)%N.
Proof.
  intros ln T plus lt zero tmin tmax into_float M S0 vs Hln HS HM Hn.
  destruct (run_inv ln plus lt zero into_float M S0 false Hln HS ltac:(lia) vs (x_new zero tmin tmax M S0) []) as (h & kept & R & I & _ & L & C & _ & K).
  - apply new_inv; lia.
  - apply Forall_forall. intros v Iv F. split; [exact F|]. intros Z.
    destruct (Z.eq_dec S0 20) as [E|E]; [|left; lia]. destruct (Hn E v Iv F) as [C|C]; [congruence|right; exact C].
  - exists h. split; [exact R|]. rewrite app_nil_r in I. cbn [x_count x_new] in C. rewrite N.add_0_l in C.
    split; [apply I|]. split; [apply I|]. split; [apply I|]. split; [exact C|].
    rewrite (inv_zero _ _ _ _ _ _ _ _ _ I), (rep_total _ _ _ _ _ _ (inv_pos _ _ _ _ _ _ _ _ _ I)), (rep_total _ _ _ _ _ _ (inv_neg _ _ _ _ _ _ _ _ _ I)).
    pose proof (finite_zeros lt zero into_float kept) as G. lia.
Qed.
Print Assumptions C48_limits_hold.

(** No resolution is given up needlessly: at the next finer scale two of the recorded
    values of one sign lie further apart than the size limit allows. *)
Theorem C48_scale_is_finest : forall (ln : f64 -> f64) (T : Type) (plus : T -> T -> T) (lt : T -> T -> bool) (zero tmin tmax : T)
    (into_float : T -> f64) (max_size max_scale : Z) (vs : list T) h,
  (ln_ok ln \/ max_scale <= 0) -> -10 <= max_scale <= 20 -> 1 <= max_size ->
  (max_scale = 20 -> forall v, In v vs -> finite into_float v = true -> is_zero into_float v = true \/ normal into_float v) ->
  x_run ln plus lt zero into_float (x_new zero tmin tmax max_size max_scale) vs = Some h -> x_scale h < max_scale ->
  exists u w, In u vs /\ In w vs /\ finite into_float u = true /\ finite into_float w = true /\ lt u zero = lt w zero /\
    is_zero into_float u = false /\ is_zero into_float w = false /\
    max_size <= get_bin ln (x_scale h + 1) (f64_abs (into_float w)) - get_bin ln (x_scale h + 1) (f64_abs (into_float u)).
Proof.
  intros ln T plus lt zero tmin tmax into_float M S0 vs h Hln HS HM Hn R0 Hlt.
  destruct (run_inv ln plus lt zero into_float M S0 false Hln HS ltac:(lia) vs (x_new zero tmin tmax M S0) []) as (h' & kept & R & I & K & _).
  - apply new_inv; lia.
  - apply Forall_forall. intros v Iv F. split; [exact F|]. intros Z.
    destruct (Z.eq_dec S0 20) as [E|E]; [|left; lia]. destruct (Hn E v Iv F) as [C|C]; [congruence|right; exact C].
  - rewrite R0 in R. injection R as <-. rewrite app_nil_r in I. destruct (inv_needed _ _ _ _ _ _ _ _ _ I Hlt) as (u & w & S & B).
    exists u, w. unfold same_side, positives, negatives in S. rewrite !filter_In in S.
    assert (G : forall x, In x kept -> In x vs /\ finite into_float x = true) by (intros x Hx; apply K in Hx; apply filter_In in Hx; exact Hx).
    destruct S as [[[U1 U2] [W1 W2]]|[[U1 U2] [W1 W2]]]; apply andb_prop in U2 as [U2 U3], W2 as [W2 W3]; apply negb_true_iff in U2, W2;
      try apply negb_true_iff in U3; try apply negb_true_iff in W3; destruct (G u U1), (G w W1); repeat split; congruence || assumption.
Qed.
Print Assumptions C48_scale_is_finest.

(** The scale never increases, and count, sum, minimum and maximum are those of the
    finite values, whatever the configuration. *)
Theorem C48_scale_never_increases_and_totals : forall (ln : f64 -> f64) (T : Type) (plus : T -> T -> T) (lt : T -> T -> bool) (zero : T)
    (into_float : T -> f64) (vs : list T) (h h' : expo),
  x_run ln plus lt zero into_float h vs = Some h' ->
  let fin := filter (finite into_float) vs in
  x_scale h' <= x_scale h /\ x_max_size h' = x_max_size h /\
  x_count h' = (x_count h + N.of_nat (length fin))%N /\
  x_sum h' = fold_left plus fin (x_sum h) /\
  x_min h' = fold_left (fun m v => if lt v m then v else m) fin (x_min h) /\
  x_max h' = fold_left (fun m v => if lt m v then v else m) fin (x_max h).
Proof.
  intros ln T plus lt zero into_float vs. induction vs as [|v vs IH]; intros h h' R; cbn [x_run] in R.
  - injection R as <-. cbn. repeat split; lia.
  - cbn [filter]. unfold x_call in R. fold (finite into_float v) in R. destruct (finite into_float v) eqn:F.
    2: { exact (IH h h' R). }
    destruct (x_record ln plus lt zero into_float h v) as [h1|] eqn:E; [|discriminate].
    assert (x_scale h1 <= x_scale h /\ x_max_size h1 = x_max_size h /\ x_count h1 = (x_count h + 1)%N /\ x_sum h1 = plus (x_sum h) v /\
            x_min h1 = (if lt v (x_min h) then v else x_min h) /\ x_max h1 = (if lt (x_max h) v then v else x_max h)) as (A1 & A2 & A3 & A4 & A5 & A6).
    { clear -E. unfold x_record in E. cbv zeta in E.
      destruct (f64_eqb _ _); [injection E as <-; cbn; repeat split; lia|].
      match type of E with context [scale_change ?a ?b ?c ?d] => set (delta := scale_change a b c d) in E end. clearbody delta.
      destruct (_ && _); [injection E as <-; cbn; repeat split; lia|].
      destruct (0 <? delta) eqn:Ed, (lt v zero);
        (match type of E with match ?x with _ => _ end = _ => destruct x; [|discriminate] end); injection E as <-; cbn; repeat split; lia. }
    destruct (IH h1 h' R) as (B1 & B2 & B3 & B4 & B5 & B6). cbn [fold_left length]. rewrite <- A4, <- A5, <- A6.
    repeat split; try assumption; try lia; congruence.
Qed.
Print Assumptions C48_scale_never_increases_and_totals.

(** Sum, minimum and maximum of a point are those of its finite measurements, for
    measurements that the number type orders and bounds (C47_number_types). *)
Theorem C48_sum_min_max : forall (ln : f64 -> f64) (T : Type) (plus : T -> T -> T) (lt : T -> T -> bool) (zero tmin tmax : T)
    (into_float : T -> f64) (max_size max_scale : Z) (good : T -> Prop) (key : T -> R) (vs : list T) (h : expo),
  (forall x y, good x -> good y -> (lt x y = true <-> (key x < key y)%R)) ->
  good tmin -> good tmax -> (forall x, good x -> (key tmin <= key x <= key tmax)%R) ->
  (forall v, In v vs -> finite into_float v = true -> good v) ->
  x_run ln plus lt zero into_float (x_new zero tmin tmax max_size max_scale) vs = Some h ->
  let fin := filter (finite into_float) vs in
  x_sum h = fold_left plus fin zero /\ x_count h = N.of_nat (length fin) /\
  (fin <> [] ->
   (exists v, In v fin /\ key (x_min h) = key v) /\ (forall v, In v fin -> (key (x_min h) <= key v)%R) /\
   (exists v, In v fin /\ key (x_max h) = key v) /\ (forall v, In v fin -> (key v <= key (x_max h))%R)).
Proof.
  intros ln T plus lt zero tmin tmax into_float M S0 good key vs h Hlt Hmin Hmax Hb Hg R fin.
  destruct (C48_scale_never_increases_and_totals _ _ _ _ _ _ _ _ _ R) as (_ & _ & Hc & Hs & Hmn & Hmx).
  cbn [x_new x_count x_sum x_min x_max] in Hc, Hs, Hmn, Hmx. fold fin in Hc, Hs, Hmn, Hmx.
  split; [exact Hs|]. split; [rewrite Hc; lia|]. intros Hne.
  assert (Hf : forall v, In v fin -> good v) by (intros v Hv; apply filter_In in Hv as [H1 H2]; apply Hg; assumption).
  rewrite Hmn, Hmx. clearbody fin. clear - Hlt Hmin Hmax Hb Hf Hne.
  set (mn := fold_left (fun m v => if lt v m then v else m)). set (mx := fold_left (fun m v => if lt m v then v else m)).
  assert (G1 : forall l a, good a -> (forall v, In v l -> good v) ->
    (mn l a = a \/ In (mn l a) l) /\ (key (mn l a) <= key a)%R /\ (forall v, In v l -> (key (mn l a) <= key v)%R)).
  { clear - Hlt. induction l as [|v l IH]; intros a Ga Hl; cbn [mn fold_left]; [split; [left; reflexivity|split; [apply Rle_refl|intros v []]]|].
    fold (mn l (if lt v a then v else a)). assert (Gv : good v) by (apply Hl; left; reflexivity). pose proof (Hlt v a Gv Ga) as E.
    destruct (lt v a) eqn:Ev.
    - destruct (IH v Gv ltac:(intros w Hw; apply Hl; right; exact Hw)) as (I1 & I2 & I3). assert (key v < key a)%R by (apply E; reflexivity).
      split; [right; destruct I1 as [->|I1]; [left; reflexivity|right; exact I1]|]. split; [lra|]. intros w [<-|Hw]; [exact I2|apply I3, Hw].
    - destruct (IH a Ga ltac:(intros w Hw; apply Hl; right; exact Hw)) as (I1 & I2 & I3).
      assert (~ (key v < key a)%R) by (intros X; apply E in X; discriminate).
      split; [destruct I1 as [->|I1]; [left; reflexivity|right; right; exact I1]|]. split; [lra|]. intros w [<-|Hw]; [lra|apply I3, Hw]. }
  assert (G2 : forall l a, good a -> (forall v, In v l -> good v) ->
    (mx l a = a \/ In (mx l a) l) /\ (key a <= key (mx l a))%R /\ (forall v, In v l -> (key v <= key (mx l a))%R)).
  { clear - Hlt. induction l as [|v l IH]; intros a Ga Hl; cbn [mx fold_left]; [split; [left; reflexivity|split; [apply Rle_refl|intros v []]]|].
    fold (mx l (if lt a v then v else a)). assert (Gv : good v) by (apply Hl; left; reflexivity). pose proof (Hlt a v Ga Gv) as E.
    destruct (lt a v) eqn:Ev.
    - destruct (IH v Gv ltac:(intros w Hw; apply Hl; right; exact Hw)) as (I1 & I2 & I3). assert (key a < key v)%R by (apply E; reflexivity).
      split; [right; destruct I1 as [->|I1]; [left; reflexivity|right; exact I1]|]. split; [lra|]. intros w [<-|Hw]; [exact I2|apply I3, Hw].
    - destruct (IH a Ga ltac:(intros w Hw; apply Hl; right; exact Hw)) as (I1 & I2 & I3).
      assert (~ (key a < key v)%R) by (intros X; apply E in X; discriminate).
      split; [destruct I1 as [->|I1]; [left; reflexivity|right; right; exact I1]|]. split; [lra|]. intros w [<-|Hw]; [lra|apply I3, Hw]. }
  destruct (G1 fin tmax Hmax Hf) as (A1 & _ & A3). destruct (G2 fin tmin Hmin Hf) as (B1 & _ & B3).
  destruct fin as [|v0 l] eqn:Ef; [contradiction|]. rewrite <- Ef in *. assert (H0 : In v0 fin) by (rewrite Ef; left; reflexivity).
  pose proof (Hb v0 (Hf v0 H0)) as B0. pose proof (A3 v0 H0) as A30. pose proof (B3 v0 H0) as B30.
  split; [|split; [exact A3|split; [|exact B3]]].
  - destruct A1 as [A1|A1]; [exists v0; split; [exact H0|rewrite A1 in *; lra]|eexists; split; [exact A1|reflexivity]].
  - destruct B1 as [B1|B1]; [exists v0; split; [exact H0|rewrite B1 in *; lra]|eexists; split; [exact B1|reflexivity]].
Qed.
Print Assumptions C48_sum_min_max.

(** ** C49 *)
Lemma count_map {A} (f : A -> Z) l i : count_occ Z.eq_dec (map f l) i = length (filter (fun v => f v =? i) l).
Proof.
  induction l as [|x l IH]; [reflexivity|]. cbn [map count_occ filter]. rewrite IH.
  destruct (Z.eq_dec (f x) i) as [E|E]; [rewrite E, Z.eqb_refl; reflexivity|]. apply Z.eqb_neq in E. rewrite E. reflexivity.
Qed.
Lemma rep_count_at ln (T : Type) (into_float : T -> f64) M s b l i : rep ln into_float M s b l ->
  count_at b i = N.of_nat (length (filter (fun v => get_bin ln s (f64_abs (into_float v)) =? i) l)).
Proof.
  intros [_ _ Rb]. rewrite <- (count_map (fun v => get_bin ln s (f64_abs (into_float v)))).
  rewrite (Permutation_count_occ Z.eq_dec) in Rb. rewrite <- Rb. unfold bins. rewrite expand_count. unfold count_at.
  destruct (_ && _); lia.
Qed.
Lemma filter_rev {A} (f : A -> bool) l : filter f (rev l) = rev (filter f l).
Proof.
  induction l as [|x l IH]; [reflexivity|]. cbn [rev filter]. rewrite List.filter_app, IH. cbn [filter].
  destruct (f x); [reflexivity|apply app_nil_r].
Qed.

Lemma pow2_bin_unique r k s i : 0 <= s -> pow2_bin r k ->
  (Z.shiftr k s =? i) = Rlt_bool (bpow radix2 (i * 2 ^ s)) r && Rle_bool r (bpow radix2 ((i + 1) * 2 ^ s)).
Proof.
  intros Hs [H1 H2]. rewrite Z.shiftr_div_pow2 by exact Hs. assert (0 < 2 ^ s) as P by (apply Z.pow_pos_nonneg; lia).
  pose proof (Z.div_mod k (2 ^ s) ltac:(lia)) as D. pose proof (Z.mod_pos_bound k (2 ^ s) P) as B.
  destruct (Z.eqb_spec (k / 2 ^ s) i) as [E|E].
  - subst i. rewrite Rlt_bool_true, Rle_bool_true; [reflexivity| |].
    + apply Rle_trans with (1 := H2). apply bpow_le. nia.
    + apply Rle_lt_trans with (2 := H1). apply bpow_le. nia.
  - symmetry. apply andb_false_iff. destruct (Z.lt_ge_cases (k / 2 ^ s) i) as [L|L].
    + left. apply Rlt_bool_false. apply Rle_trans with (1 := H2). apply bpow_le. nia.
    + right. apply Rle_bool_false. apply Rle_lt_trans with (2 := H1). apply bpow_le. nia.
Qed.

(** At scales up to 0 bucket [i] counts exactly the values in (base^i, base^(i+1)],
    where base = 2^(2^(-scale)). *)
Definition in_bucket {T} (into_float : T -> f64) (s i : Z) (v : T) : bool :=
  Rlt_bool (bpow radix2 (i * 2 ^ (- s))) (magnitude into_float v) && Rle_bool (magnitude into_float v) (bpow radix2 ((i + 1) * 2 ^ (- s))).

Theorem C49_buckets_exact_up_to_scale_zero : forall (ln : f64 -> f64) (T : Type) (plus : T -> T -> T) (lt : T -> T -> bool) (zero tmin tmax : T)
    (into_float : T -> f64) (max_size max_scale : Z) (vs : list T) (h : expo) (i : Z),
  (ln_ok ln \/ max_scale <= 0) -> -10 <= max_scale <= 20 -> 3 <= max_size ->
  (max_scale = 20 -> forall v, In v vs -> finite into_float v = true -> is_zero into_float v = true \/ normal into_float v) ->
  x_run ln plus lt zero into_float (x_new zero tmin tmax max_size max_scale) vs = Some h ->
  x_scale h <= 0 ->
  let fin := filter (finite into_float) vs in
  count_at (x_pos h) i = N.of_nat (length (filter (in_bucket into_float (x_scale h) i) (positives lt zero into_float fin))) /\
  count_at (x_neg h) i = N.of_nat (length (filter (in_bucket into_float (x_scale h) i) (negatives lt zero into_float fin))).
Proof.
  intros ln T plus lt zero tmin tmax into_float M S0 vs h i Hln HS HM Hn R Hsc fin.
  destruct (run_inv ln plus lt zero into_float M S0 false Hln HS ltac:(lia) vs (x_new zero tmin tmax M S0) []) as (h2 & kept & R2 & I & _ & _ & _ & _ & K).
  - apply new_inv; lia.
  - apply Forall_forall. intros v Iv F. split; [exact F|]. intros Z.
    destruct (Z.eq_dec S0 20) as [E|E]; [|left; lia]. destruct (Hn E v Iv F) as [C|C]; [congruence|right; exact C].
  - rewrite R in R2. injection R2 as <-. specialize (K HM). rewrite app_nil_r, K in I. fold fin in I.
    assert (forall l : list T, (forall v, In v l -> usable into_float S0 false v) ->
      filter (fun v => get_bin ln (x_scale h) (f64_abs (into_float v)) =? i) l = filter (in_bucket into_float (x_scale h) i) l) as Eq.
    { intros l Hl. apply filter_ext_in. intros v Hv. destruct (usable_abs _ _ _ v (Hl v Hv)) as [F P].
      destruct (get_bin_nonpos ln _ F P) as (k & K0 & _ & _ & K3). rewrite (K3 (x_scale h) Hsc).
      rewrite abs_R in K0. rewrite (pow2_bin_unique _ k (- x_scale h) i ltac:(lia) K0). reflexivity. }
    destruct I as [_ _ Ig Ip In_ _].
    rewrite (rep_count_at _ _ _ _ _ _ _ i Ip), (rep_count_at _ _ _ _ _ _ _ i In_).
    rewrite (Eq _ (fun u => in_positives lt zero into_float S0 false u _ Ig)), (Eq _ (fun u => in_negatives lt zero into_float S0 false u _ Ig)).
    unfold positives, negatives. rewrite !filter_rev, !rev_length. split; reflexivity.
Qed.
Print Assumptions C49_buckets_exact_up_to_scale_zero.

(** At every scale each value is counted in one bucket, and its magnitude lies in that
    bucket's range up to the error of the computed binary logarithm. *)
Definition log2R (x : R) : R := (Rpower.ln x / Rpower.ln 2)%R.
Definition log_error (ln : f64 -> f64) (eps : R) : Prop := forall f, f64_is_finite f = true -> (/ 2 <= f64R f < 1)%R ->
  (Rabs (f64R (f64_mul (ln f) LOG2_E) - log2R (f64R f)) <= eps)%R.
Definition near_bucket {T} (into_float : T -> f64) (eps : R) (s i : Z) (v : T) : Prop :=
  (Rpower 2 (IZR i / Rpower 2 (IZR s) - eps) < magnitude into_float v <= Rpower 2 (IZR (i + 1) / Rpower 2 (IZR s) + eps))%R.

Lemma ln2_pos : (0 < Rpower.ln 2)%R.
Proof. rewrite <- ln_1. apply ln_increasing; lra. Qed.
Lemma Rpower2_log x : (0 < x)%R -> Rpower 2 (log2R x) = x.
Proof.
  intros H. unfold Rpower, log2R. pose proof ln2_pos. replace (Rpower.ln x / Rpower.ln 2 * Rpower.ln 2)%R with (Rpower.ln x) by (field; lra).
  apply exp_ln, H.
Qed.
Lemma bpow_Rpower k : bpow radix2 k = Rpower 2 (IZR k).
Proof. rewrite bpow_powerRZ. rewrite <- powerRZ_Rpower by lra. reflexivity. Qed.

Lemma near_pos ln x s eps : ln_ok ln -> log_error ln eps -> f64_is_finite x = true -> (0 < f64R x)%R -> 0 <= s <= 20 ->
  let i := get_bin ln s x in
  (Rpower 2 (IZR i / Rpower 2 (IZR s) - eps) < f64R x <= Rpower 2 (IZR (i + 1) / Rpower 2 (IZR s) + eps))%R.
Proof.
  intros Hln He F P Hs i. destruct (get_bin_pos ln x Hln F P) as (f & e & [F1 F2 F3 F4] & _ & _ & _ & K & _).
  unfold i. rewrite (K s Hs). set (y := f64R (f64_mul (ln f) LOG2_E)) in *.
  pose proof (He f F1 (conj F2 F3)) as Er. fold y in Er.
  set (a := ((IZR e + y) * bpow radix2 s)%R) in *.
  assert (f64R x = Rpower 2 (IZR e + log2R (f64R f))) as Ex.
  { rewrite Rpower_plus, Rpower2_log by lra. rewrite <- bpow_Rpower, F4. ring. }
  rewrite Ex. rewrite <- bpow_Rpower.
  pose proof (bpow_gt_0 radix2 s) as Bs. pose proof (Zceil_ub a) as U. pose proof (Zceil_lb a) as L.
  assert (IZR e + y = a / bpow radix2 s)%R as Ea by (unfold a; field; lra).
  apply Rabs_le_inv in Er.
  replace (Zceil a - 1 + 1) with (Zceil a) by lia. rewrite minus_IZR.
  assert ((IZR (Zceil a) - 1) / bpow radix2 s < a / bpow radix2 s)%R as L1 by (apply Rmult_lt_compat_r; [apply Rinv_0_lt_compat, Bs|lra]).
  assert (a / bpow radix2 s <= IZR (Zceil a) / bpow radix2 s)%R as L2 by (apply Rmult_le_compat_r; [apply Rlt_le, Rinv_0_lt_compat, Bs|lra]).
  split; [apply Rpower_lt; lra|apply Rle_Rpower; lra].
Qed.

Theorem C49_buckets_up_to_log_error : forall (ln : f64 -> f64) (eps : R) (T : Type) (plus : T -> T -> T) (lt : T -> T -> bool) (zero tmin tmax : T)
    (into_float : T -> f64) (max_size max_scale : Z) (vs : list T) (h : expo),
  ln_ok ln -> log_error ln eps -> -10 <= max_scale <= 20 -> 3 <= max_size ->
  (max_scale = 20 -> forall v, In v vs -> finite into_float v = true -> is_zero into_float v = true \/ normal into_float v) ->
  x_run ln plus lt zero into_float (x_new zero tmin tmax max_size max_scale) vs = Some h ->
  0 <= x_scale h ->
  let fin := filter (finite into_float) vs in
  exists bucket : T -> Z,
    (forall v, In v fin -> is_zero into_float v = false -> near_bucket into_float eps (x_scale h) (bucket v) v) /\
    (forall i, count_at (x_pos h) i = N.of_nat (length (filter (fun v => bucket v =? i) (positives lt zero into_float fin)))) /\
    (forall i, count_at (x_neg h) i = N.of_nat (length (filter (fun v => bucket v =? i) (negatives lt zero into_float fin)))).
Proof.
  intros ln eps T plus lt zero tmin tmax into_float M S0 vs h Hln He HS HM Hn R Hsc fin.
  destruct (run_inv ln plus lt zero into_float M S0 false (or_introl Hln) HS ltac:(lia) vs (x_new zero tmin tmax M S0) []) as (h2 & kept & R2 & I & _ & _ & _ & _ & K).
  - apply new_inv; lia.
  - apply Forall_forall. intros v Iv F. split; [exact F|]. intros Z.
    destruct (Z.eq_dec S0 20) as [E|E]; [|left; lia]. destruct (Hn E v Iv F) as [C|C]; [congruence|right; exact C].
  - rewrite R in R2. injection R2 as <-. specialize (K HM). rewrite app_nil_r, K in I. fold fin in I.
    exists (fun v => get_bin ln (x_scale h) (f64_abs (into_float v))). split; [|split].
    + intros v Hv Hz. pose proof (inv_scale _ _ _ _ _ _ _ _ _ I) as Sc.
      pose proof (inv_good _ _ _ _ _ _ _ _ _ I) as G. rewrite Forall_forall in G.
      destruct (usable_abs into_float S0 false v) as [F P]; [split; [apply G; apply in_rev in Hv; exact Hv|exact Hz]|].
      pose proof (near_pos ln _ (x_scale h) eps Hln He F P ltac:(lia)) as N. cbv zeta in N. rewrite abs_R in N. exact N.
    + intros i. rewrite (rep_count_at _ _ _ _ _ _ _ i (inv_pos _ _ _ _ _ _ _ _ _ I)). unfold positives. rewrite !filter_rev, !rev_length. reflexivity.
    + intros i. rewrite (rep_count_at _ _ _ _ _ _ _ i (inv_neg _ _ _ _ _ _ _ _ _ I)). unfold negatives. rewrite !filter_rev, !rev_length. reflexivity.
Qed.
Print Assumptions C49_buckets_up_to_log_error.

(** ** Where the claims fail *)
Definition f64_new := @x_new f64 (f64_of_Z 0) (f64_lit (-9007199254740991) 971) (f64_lit 9007199254740991 971).
Definition f64_run (ln : f64 -> f64) := @x_run ln f64 f64_add f64_ltb (f64_of_Z 0) (fun x => x).
Definition MAX : f64 := f64_lit 9007199254740991 971.
Definition TINY : f64 := f64_lit 1 (-1074).

(** A limit of two buckets: at the coarsest scale the doubles fall into three bins, so a
    measurement is dropped after it was counted. *)
Theorem C111_two_buckets_refuted : forall ln,
  match f64_run ln (f64_new 2 0) [MAX; TINY] with
  | Some h => x_count h = 2%N /\ (x_zero h + total (x_pos h) + total (x_neg h) = 1)%N
  | None => False
  end.
Proof. intros ln. vm_compute. split; reflexivity. Qed.
Print Assumptions C111_two_buckets_refuted.

Lemma shiftr_range a k q : 0 <= k -> Z.shiftr a k = q -> q * 2 ^ k <= a < (q + 1) * 2 ^ k.
Proof.
  intros Hk H. rewrite Z.shiftr_div_pow2 in H by exact Hk. assert (0 < 2 ^ k) as P by (apply Z.pow_pos_nonneg; lia).
  pose proof (Z.div_mod a (2 ^ k) ltac:(lia)). pose proof (Z.mod_pos_bound a (2 ^ k) P). nia.
Qed.
Lemma pos_by_ltb x : f64_is_finite x = true -> f64_ltb (f64_of_Z 0) x = true -> (0 < f64R x)%R.
Proof. intros F H. destruct (of_Z_exact 0 ltac:(cbn; lia)) as [E1 E2]. rewrite <- E1. apply ltb_fin; assumption. Qed.
Lemma abs_pos x : f64_is_finite x = true -> f64_ltb (f64_of_Z 0) x = true -> f64_abs x = x.
Proof. intros F P. apply pos_by_ltb in P; [|exact F]. destruct (pos_cases x F P) as (mx & ex & H & -> & _). reflexivity. Qed.
Lemma bin20 ln x q : ln_ok ln -> f64_is_finite x = true -> f64_ltb (f64_of_Z 0) x = true -> get_bin ln 0 x = q ->
  q * 2 ^ 20 <= get_bin ln 20 x < (q + 1) * 2 ^ 20.
Proof.
  intros H F P E. apply pos_by_ltb in P; [|exact F]. apply shiftr_range; [lia|]. rewrite <- E. symmetry.
  apply (get_bin_shift ln x 20 0); auto; lia.
Qed.

(** The default configuration (160 buckets, scale 20): recording the largest and the
    smallest double, in either order, panics. *)
Theorem C111_default_configuration_panics_refuted : forall ln, ln_ok ln ->
  f64_run ln (f64_new 160 20) [MAX; TINY] = None /\ f64_run ln (f64_new 160 20) [TINY; MAX] = None.
Proof.
  intros ln Hln.
  pose proof (bin20 ln MAX 1023 Hln eq_refl ltac:(vm_compute; reflexivity) ltac:(vm_compute; reflexivity)) as B1.
  pose proof (bin20 ln TINY (-1075) Hln eq_refl ltac:(vm_compute; reflexivity) ltac:(vm_compute; reflexivity)) as B2.
  assert (forall h v, f64_is_finite v = true -> f64_ltb v (f64_of_Z 0) = false -> f64_abs v = v -> f64_eqb v (f64_of_Z 0) = false ->
    x_pos h = eb_new -> x_scale h = 20 -> exists h', x_call ln f64_add f64_ltb (f64_of_Z 0) (fun x => x) h v = Some h' /\
      x_pos h' = mk_eb (get_bin ln 20 v) [1%N] /\ x_scale h' = 20 /\ x_max_size h' = x_max_size h) as First.
  { intros h v F1 F2 F3 F4 F5 F6. unfold x_call, x_record. cbv zeta. rewrite F1, F3, F4, F2, F5, F6. cbn. eauto. }
  assert (forall h v w, f64_is_finite v = true -> f64_ltb v (f64_of_Z 0) = false -> f64_abs v = v -> f64_eqb v (f64_of_Z 0) = false ->
    x_pos h = mk_eb (get_bin ln 20 w) [1%N] -> x_scale h = 20 -> x_max_size h = 160 ->
    scale_change 160 (get_bin ln 20 v) (get_bin ln 20 w) 1 = 0 -> eb_record (get_bin ln 20 v) (mk_eb (get_bin ln 20 w) [1%N]) = None ->
    x_call ln f64_add f64_ltb (f64_of_Z 0) (fun x => x) h v = None) as Second.
  { intros h v w F1 F2 F3 F4 F5 F6 F7 F8 F9. unfold x_call, x_record. cbv zeta. rewrite F1, F3, F4, F2, F5, F6, F7. cbn [eb_start]. change (elen _) with 1.
    rewrite F8. cbn [Z.ltb Z.compare andb]. rewrite F9. reflexivity. }
  Transparent i32.
  assert (forall z, 2 ^ 31 <= z < 2 ^ 32 -> i32 z = z - 2 ^ 32) as W.
  { intros z Hz. unfold i32. assert (z + 2 ^ 31 = (z - 2 ^ 31) + 1 * 2 ^ 32) as -> by lia. rewrite Z.mod_add, Z.mod_small by lia. lia. }
  assert (forall z, - 2 ^ 32 <= z < - 2 ^ 31 -> i32 z = z + 2 ^ 32) as W2.
  { intros z Hz. unfold i32. assert (z + 2 ^ 31 = (z + 2 ^ 31 + 2 ^ 32) + (-1) * 2 ^ 32) as -> by lia. rewrite Z.mod_add, Z.mod_small by lia. lia. }
  Opaque i32.
  unfold f64_run. cbn [x_run]. split.
  - destruct (First (f64_new 160 20) MAX) as (h1 & -> & P1 & S1 & M1);
      [vm_compute; reflexivity|vm_compute; reflexivity|apply abs_pos; vm_compute; reflexivity|vm_compute; reflexivity|reflexivity|reflexivity|].
    rewrite (Second h1 TINY MAX);
      [reflexivity|vm_compute; reflexivity|vm_compute; reflexivity|apply abs_pos; vm_compute; reflexivity|vm_compute; reflexivity|exact P1|exact S1|exact M1| |].
    + unfold scale_change. cbn [Z.eqb]. replace (get_bin ln 20 TINY <=? get_bin ln 20 MAX) with true by lia.
      cbn [sc_loop]. rewrite W by lia. replace (160 <=? _) with false by lia. reflexivity.
    + unfold eb_record. cbn [eb_counts eb_start]. change (elen _) with 1. cbv zeta. rewrite (i32_id (get_bin ln 20 MAX + 1 - 1)) by lia.
      replace (get_bin ln 20 MAX <=? get_bin ln 20 TINY) with false by lia. cbn [andb].
      replace (get_bin ln 20 TINY <? get_bin ln 20 MAX) with true by lia. rewrite (W (get_bin ln 20 MAX + 1 - 1 - get_bin ln 20 TINY + 1)) by lia.
      replace (get_bin ln 20 MAX + 1 - 1 - get_bin ln 20 TINY + 1 - 2 ^ 32 <? 0) with true by lia. reflexivity.
  - destruct (First (f64_new 160 20) TINY) as (h1 & -> & P1 & S1 & M1);
      [vm_compute; reflexivity|vm_compute; reflexivity|apply abs_pos; vm_compute; reflexivity|vm_compute; reflexivity|reflexivity|reflexivity|].
    rewrite (Second h1 MAX TINY);
      [reflexivity|vm_compute; reflexivity|vm_compute; reflexivity|apply abs_pos; vm_compute; reflexivity|vm_compute; reflexivity|exact P1|exact S1|exact M1| |].
    + unfold scale_change. cbn [Z.eqb]. replace (get_bin ln 20 MAX <=? get_bin ln 20 TINY) with false by lia.
      cbn [sc_loop]. rewrite W by lia. replace (160 <=? _) with false by lia. reflexivity.
    + unfold eb_record. cbn [eb_counts eb_start]. change (elen _) with 1. cbv zeta. rewrite (i32_id (get_bin ln 20 TINY + 1 - 1)) by lia.
      replace (get_bin ln 20 MAX <=? get_bin ln 20 TINY + 1 - 1) with false by lia. rewrite andb_false_r.
      replace (get_bin ln 20 MAX <? get_bin ln 20 TINY) with false by lia. rewrite (W (get_bin ln 20 MAX - get_bin ln 20 TINY)) by lia.
      replace (get_bin ln 20 MAX - get_bin ln 20 TINY - 2 ^ 32 <? 1) with true by lia. reflexivity.
Qed.
Print Assumptions C111_default_configuration_panics_refuted.

(** Exactness at positive scales: with the correctly rounded logarithm of this number its
    bin at scale 5 is -12, although it is above the upper bound 2^(-11/32) of that bin. *)
Definition MISPLACED : f64 := f64_lit 7097586746770917 (-53).
Theorem C112_exact_at_positive_scales_refuted : forall ln, ln MISPLACED = f64_lit (-8584557806227369) (-55) ->
  get_bin ln 5 MISPLACED = -12 /\ (bpow radix2 (-11) < f64R MISPLACED ^ 32)%R.
Proof.
  intros ln H. split.
  - assert (f64_is_finite MISPLACED = true) as F by (vm_compute; reflexivity).
    destruct (frexp_spec MISPLACED F) as (f & e & E & [F1 F2 F3 F4] & _); [apply pos_by_ltb; [exact F|vm_compute; reflexivity]|].
    assert (e = 0) as -> by (replace e with (snd (frexp MISPLACED)) by (rewrite E; reflexivity); vm_compute; reflexivity).
    assert (f = MISPLACED) as ->.
    { apply (Binary.B2R_inj 53 1024); [|vm_compute; reflexivity|].
      - destruct f; try discriminate F1; [cbn in F2; lra|reflexivity].
      - unfold f64R in F4. rewrite F4. cbn [bpow]. symmetry. apply Rmult_1_r. }
    unfold get_bin. rewrite E, H. vm_compute. reflexivity.
  - assert (f64R MISPLACED = IZR 7097586746770917 * bpow radix2 (-53))%R as -> by reflexivity.
    rewrite Rpow_mult_distr. assert (bpow radix2 (-53) ^ 32 = bpow radix2 (-1696))%R as ->.
    { rewrite !bpow_Rpower, <- Rpower_pow by apply exp_pos. rewrite Rpower_mult. f_equal. cbn. lra. }
    replace (-11) with (1685 + -1696) by lia. rewrite bpow_plus. apply Rmult_lt_compat_r; [apply bpow_gt_0|].
    rewrite pow_IZR, <- IZR_Zpower by lia. apply IZR_lt. vm_compute. reflexivity.
Qed.
Print Assumptions C112_exact_at_positive_scales_refuted.

(** ** The hypotheses are met *)
Definition ln0 (f : f64) : f64 := if f64_eqb f half then f64_lit (-6243314768165359) (-53) else f64_lit (-1) (-1).
Lemma R_by_ltb x y : f64_is_finite x = true -> f64_is_finite y = true -> f64_ltb x y = true -> (f64R x < f64R y)%R.
Proof. intros Fx Fy H. apply ltb_fin in H; assumption. Qed.
Example ln0_ok : ln_ok ln0.
Proof.
  intros f F [H1 H2]. unfold ln0. destruct (of_Z_exact (-1) ltac:(cbn; lia)) as [Em Fm].
  assert (f64R (f64_lit (-1) (-60)) = - bpow radix2 (-60))%R as E60.
  { unfold f64R, f64_lit. cbn. unfold F2R. cbn. lra. }
  destruct (f64_eqb f half) eqn:E.
  - apply eqb_half in E; [|exact F]. set (y := f64_mul (f64_lit (-6243314768165359) (-53)) LOG2_E).
    assert (f64R y = -1)%R as Ey. { change (-1)%R with (IZR (-1)). rewrite <- Em. apply eqb_fin; [vm_compute; reflexivity|exact Fm|vm_compute; reflexivity]. }
    split; [vm_compute; reflexivity|]. split; [vm_compute; reflexivity|]. split; [intros _; exact Ey|]. split; [intros C; lra|].
    rewrite Ey. pose proof (bpow_le radix2 (-60) 0 ltac:(lia)) as B. change (bpow radix2 0) with 1%R in B. lra.
  - split; [vm_compute; reflexivity|]. split; [vm_compute; reflexivity|].
    split; [intros C; apply eqb_half in C; [congruence|exact F]|]. split.
    + intros _. change (-1)%R with (IZR (-1)). rewrite <- Em. apply R_by_ltb; [exact Fm|vm_compute; reflexivity|vm_compute; reflexivity].
    + rewrite <- E60. apply Rlt_le, R_by_ltb; vm_compute; reflexivity.
Qed.
(** 1, 3, -2, 0 and 1000 with at most three buckets: the scale goes from 2 to -3. *)
Example C48_C49_nonvacuous : match f64_run ln0 (f64_new 3 2) (map f64_of_Z [1; 3; -2; 0; 1000]) with
  | Some h => x_count h = 5%N /\ x_zero h = 1%N /\ x_scale h = -3 /\ eb_start (x_pos h) = -1 /\ eb_counts (x_pos h) = [1; 1; 1]%N /\
      eb_start (x_neg h) = 0 /\ eb_counts (x_neg h) = [1]%N
  | None => False
  end.
Proof. vm_compute. repeat split. Qed.
