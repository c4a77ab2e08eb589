(** Exponential histograms on their way to the OTLP request: supporting lemmas. *)
From Coq Require Import List Bool Arith NArith ZArith Reals Lia Lra Permutation.
From Flocq Require Import Core.
From Verif Require Import F64 F64Proofs InstrModel AttrModel PipelineModel HistModel HistProps ExpoModel ExpoProofs ExpoFloat MetricWireModel MetricWireSpec.
From Verif Require KvModel OtlpModel ProtoSpec ProtoProps ExpoProps.
From Flocq Require IEEE754.BinarySingleNaN IEEE754.Binary.
Import ListNotations.
Local Open Scope Z_scope.

(** 64-bit integers are finite as floats. *)
Lemma of_Z_finite z : Z.abs z <= 2 ^ 64 -> f64_is_finite (f64_of_Z z) = true.
Proof.
  intros H. unfold f64_of_Z, f64_is_finite. pose proof (Binary.binary_normalize_correct 53 1024 eq_refl eq_refl BinarySingleNaN.mode_NE z 0 false) as G.
  assert (F2R (Float radix2 z 0) = IZR z) as E by (unfold F2R; cbn; ring). rewrite E in G. rewrite Rlt_bool_true in G; [apply G|].
  apply Rle_lt_trans with (bpow radix2 64); [|apply bpow_lt; reflexivity].
  apply abs_round_le_generic; [apply FLT.FLT_exp_valid; reflexivity|apply BinarySingleNaN.valid_rnd_round_mode| |].
  - apply generic_format_bpow. vm_compute. discriminate.
  - rewrite <- abs_IZR. change (bpow radix2 64) with (IZR (2 ^ 64)). apply IZR_le, H.
Qed.

(** Buckets nothing was recorded in start at 0. *)
Definition starts (b : ebuckets) : Prop := eb_counts b = [] -> eb_start b = 0.
Lemma starts_downscale k b : starts b -> starts (eb_downscale k b).
Proof.
  intros H E. assert (Ec : eb_counts b = []).
  { destruct (eb_counts b) as [|c cs] eqn:Ec; [reflexivity|]. unfold eb_downscale in E. destruct (_ || _) in E; cbn [eb_counts] in E; [congruence|].
    set (arr := fold_left _ _ _) in E. assert (L : length arr = length (eb_counts b)).
    { unfold arr. clear. generalize (seq 1 (length (eb_counts b) - 1)). generalize (eb_counts b). intros l s. revert l. induction s as [|i s IH]; intros l; [reflexivity|]. cbn [fold_left]. rewrite IH.
      assert (U : forall f l i, length (upd i f l) = length l) by (clear; intros f; induction l as [|x l IH]; intros [|i]; cbn [upd length]; auto).
      unfold ds_step. destruct (_ =? _); apply U. }
    rewrite Ec in L. destruct arr; [discriminate|]. replace (Z.to_nat ((elen b - 1 + Z.rem (Z.rem (eb_start b) (Z.shiftl 1 k) + Z.shiftl 1 k) (Z.shiftl 1 k)) / Z.shiftl 1 k) + 1)%nat with
      (S (Z.to_nat ((elen b - 1 + Z.rem (Z.rem (eb_start b) (Z.shiftl 1 k) + Z.shiftl 1 k) (Z.shiftl 1 k)) / Z.shiftl 1 k))) in E by lia. discriminate. }
  specialize (H Ec). unfold eb_downscale. assert (elen b <=? 1 = true) as -> by (unfold elen; rewrite Ec; reflexivity). cbn [orb eb_start]. rewrite H. apply Z.shiftr_0_l.
Qed.
Lemma starts_record bin b b' : eb_record bin b = Some b' -> starts b'.
Proof.
  assert (U : forall f l i, length (upd i f l) = length l) by (clear; intros f; induction l as [|x l IH]; intros [|i]; cbn [upd length]; auto).
  unfold eb_record. destruct (eb_counts b) as [|c cs] eqn:Ec; intros E; [injection E as <-; intros X; discriminate X|].
  assert (G : forall s l i f, l <> [] -> starts (mk_eb s (upd i f l))).
  { intros s l i f Hl X. cbn [eb_counts] in X. apply (f_equal (@length _)) in X. rewrite U in X. destruct l; [contradiction|discriminate]. }
  destruct (_ && _); [injection E as <-; apply G; discriminate|].
  destruct (bin <? eb_start b).
  - destruct (_ || _); [discriminate|]. injection E as <-. apply (G _ (repeat 0%N _ ++ c :: cs) 0%nat (fun _ => 1%N)). destruct (repeat _ _); discriminate.
  - destruct (_ <? _) in E; [discriminate|]. injection E as <-. apply (G _ ((c :: cs) ++ repeat 0%N _) _ (fun _ => 1%N)). discriminate.
Qed.
Section run.
Context (ln : f64 -> f64) {T : Type} (plus : T -> T -> T) (lt : T -> T -> bool) (zero tmin tmax : T) (into : T -> f64).
Lemma starts_run vs : forall h h', x_run ln plus lt zero into h vs = Some h' -> starts (x_pos h) /\ starts (x_neg h) -> starts (x_pos h') /\ starts (x_neg h').
Proof.
  induction vs as [|v vs IH]; intros h h' E H; [injection E as <-; exact H|]. cbn [x_run] in E. destruct (x_call ln plus lt zero into h v) as [h1|] eqn:E1; [|discriminate].
  apply (IH h1 h' E). clear IH E. unfold x_call in E1. destruct (f64_is_finite (into v)); [|injection E1 as <-; exact H]. unfold x_record in E1. cbv zeta in E1. destruct H as [Hp Hn].
  destruct (f64_eqb _ _); [injection E1 as <-; split; assumption|].
  match type of E1 with context [scale_change ?a ?b ?c ?d] => set (delta := scale_change a b c d) in E1 end. clearbody delta.
  destruct (_ && _); [injection E1 as <-; split; assumption|].
  destruct (0 <? delta), (lt v zero);
    (match type of E1 with match ?x with _ => _ end = _ => destruct x as [b|] eqn:Eb; [|discriminate] end); injection E1 as <-; cbn [x_pos x_neg];
    apply starts_record in Eb; split; try exact Eb; try apply starts_downscale; assumption.
Qed.

(** What a histogram of finite measurements that it can take looks like. *)
Definition sums_to (b : ebuckets) (n : nat) : Prop := fold_right N.add 0%N (eb_counts b) = N.of_nat n.
Definition in_i32 (b : ebuckets) : Prop := - 2 ^ 31 <= eb_start b < 2 ^ 31.
Lemma expo_run M S0 vs : (ln_ok ln \/ S0 <= 0) -> -10 <= S0 <= 20 -> 3 <= M -> (forall v, In v vs -> f64_is_finite (into v) = true) ->
  (S0 = 20 -> forall v, In v vs -> ExpoProps.is_zero into v = true \/ ExpoProps.normal into v) ->
  exists h, x_run ln plus lt zero into (x_new zero tmin tmax M S0) vs = Some h /\ -10 <= x_scale h <= S0 /\
    elen (x_pos h) <= M /\ elen (x_neg h) <= M /\ x_count h = N.of_nat (length vs) /\ x_zero h = N.of_nat (length (ExpoProps.zeros into vs)) /\
    sums_to (x_pos h) (length (ExpoProps.positives lt zero into vs)) /\ sums_to (x_neg h) (length (ExpoProps.negatives lt zero into vs)) /\
    in_i32 (x_pos h) /\ in_i32 (x_neg h).
Proof.
  intros Hln HS HM Hf Hn.
  assert (Fin : filter (ExpoProps.finite into) vs = vs).
  { clear -Hf. induction vs as [|v vs IH]; [reflexivity|]. cbn [filter]. unfold ExpoProps.finite at 1. rewrite (Hf v (or_introl eq_refl)). f_equal. apply IH. intros w Hw. apply Hf. right. exact Hw. }
  destruct (ExpoProps.run_inv ln plus lt zero into M S0 false Hln HS ltac:(lia) vs (x_new zero tmin tmax M S0) []) as (h & kept & R & I & _ & _ & C & _ & K).
  - apply ExpoProps.new_inv; lia.
  - apply Forall_forall. intros v Iv F. split; [exact F|]. intros Z.
    destruct (Z.eq_dec S0 20) as [E|E]; [|left; lia]. destruct (Hn E v Iv) as [C|C]; [congruence|right; exact C].
  - exists h. split; [exact R|]. specialize (K HM). rewrite app_nil_r, K, Fin in I. cbn [x_count x_new] in C. rewrite N.add_0_l, Fin in C.
    destruct (starts_run vs _ _ R) as [St1 St2]; [split; intros _; reflexivity|].
    destruct I as [_ Is Ig Ip In_ Iz _].
    assert (Bd : forall b l, ExpoProps.rep ln into M (x_scale h) b l -> starts b -> (forall v, In v l -> ExpoProps.usable into S0 false v) -> in_i32 b).
    { intros b l Hr Hs Hu. unfold in_i32. destruct (eb_counts b) as [|c cs] eqn:Ec; [rewrite (Hs Ec); lia|].
      destruct (ExpoProps.rep_in ln into M (x_scale h) b l Hr) as (x & w & Hx & _ & <- & _); [rewrite Ec; discriminate|].
      pose proof (ExpoProps.usable_bounds ln into S0 false Hln HS x (x_scale h) (Hu x Hx) ltac:(lia)). lia. }
    split; [exact Is|]. split; [apply Ip|]. split; [apply In_|]. split; [exact C|].
    split. { rewrite Iz. unfold ExpoProps.zeros. rewrite ExpoProps.filter_rev, rev_length. reflexivity. }
    split. { unfold sums_to. rewrite <- (rev_length (ExpoProps.positives lt zero into vs)). unfold ExpoProps.positives. rewrite <- ExpoProps.filter_rev. exact (ExpoProps.rep_total _ _ _ _ _ _ Ip). }
    split. { unfold sums_to. rewrite <- (rev_length (ExpoProps.negatives lt zero into vs)). unfold ExpoProps.negatives. rewrite <- ExpoProps.filter_rev. exact (ExpoProps.rep_total _ _ _ _ _ _ In_). }
    split; [eapply Bd; [exact Ip|exact St1|intros v; apply (ExpoProps.in_positives lt zero into S0 false v _ Ig)]|].
    eapply Bd; [exact In_|exact St2|intros v; apply (ExpoProps.in_negatives lt zero into S0 false v _ Ig)].
Qed.
End run.

(** * The aggregator *)
Lemma runs {T} ln plus lt (zero : T) into vs : (forall v, In v vs -> f64_is_finite (into v) = true) -> forall h,
  fold_left (fun o v => option_bind (fun h => x_record ln plus lt zero into h v) o) vs h = option_bind (fun h => x_run ln plus lt zero into h vs) h.
Proof.
  induction vs as [|v vs IH]; intros Hf h; [destruct h; reflexivity|]. cbn [fold_left x_run]. rewrite IH by (intros w Hw; apply Hf; right; exact Hw).
  destruct h as [h|]; [|reflexivity]. cbn [option_bind]. unfold x_call. rewrite (Hf v (or_introl eq_refl)). reflexivity.
Qed.
Lemma expo_z pp ln u im mm rs zs : (forall z, In z zs -> f64_is_finite (f64_of_Z z) = true) -> forall h,
  fold_left (w_update pp ln u im) (map NZ zs) (AEZ mm rs (Some h)) = AEZ mm rs (x_run ln (fun x y => wrap u (x + y)) Z.ltb 0 f64_of_Z h zs).
Proof.
  intros Hf h. change (x_run _ _ _ _ _ h zs) with (option_bind (fun h => x_run ln (fun x y => wrap u (x + y)) Z.ltb 0 f64_of_Z h zs) (Some h)). rewrite <- runs by exact Hf.
  generalize (Some h). clear. induction zs as [|z zs IH]; intros o; [reflexivity|]. cbn [map fold_left w_update]. apply IH.
Qed.
Lemma expo_f pp ln u im mm rs fs : (forall f, In f fs -> f64_is_finite f = true) -> forall h,
  fold_left (w_update pp ln u im) (map NF fs) (AEF mm rs (Some h)) = AEF mm rs (x_run ln f64_add f64_ltb (f64_of_Z 0) (fun f => f) h fs).
Proof.
  intros Hf h. change (x_run _ _ _ _ _ h fs) with (option_bind (fun h => x_run ln f64_add f64_ltb (f64_of_Z 0) (fun f => f) h fs) (Some h)). rewrite <- runs by exact Hf.
  generalize (Some h). clear. induction fs as [|z fs IH]; intros o; [reflexivity|]. cbn [map fold_left w_update]. apply IH.
Qed.

Lemma ints_mapped zs : ints (map NZ zs) = zs.
Proof. induction zs as [|z zs IH]; [reflexivity|]. cbn. f_equal. exact IH. Qed.
Lemma floats_mapped zs : floats (map NF zs) = zs.
Proof. induction zs as [|z zs IH]; [reflexivity|]. cbn. f_equal. exact IH. Qed.
Lemma filter_mapped {X Y} (f : X -> Y) p l : filter p (map f l) = map f (filter (fun x => p (f x)) l).
Proof. induction l as [|x l IH]; [reflexivity|]. cbn [map filter]. destruct (p (f x)); cbn [map]; rewrite IH; reflexivity. Qed.

(** * What the point shows *)
Section shown.
Context {Vl : Type} (val : Vl -> KvModel.value) (ln : f64 -> f64).
Context {T : Type} (plus : T -> T -> T) (lt : T -> T -> bool) (zero tmin tmax : T) (into : T -> f64) (inj : T -> number) (prj : number -> T) (num : T -> OtlpModel.pnum).
Context (Hinto : forall v, as_float (inj v) = into v) (Hlt : forall v, below_zero (inj v) = lt v zero) (Hprj : forall v, prj (inj v) = v).
Lemma zero_same v : MetricWireSpec.is_zero (inj v) = ExpoProps.is_zero into v.
Proof using Hinto. unfold MetricWireSpec.is_zero, ExpoProps.is_zero. rewrite Hinto. reflexivity. Qed.
Lemma side_same neg vs : side neg (map inj vs) = map inj (if neg then ExpoProps.negatives lt zero into vs else ExpoProps.positives lt zero into vs).
Proof using Hinto Hlt.
  unfold side. rewrite filter_mapped. f_equal. unfold ExpoProps.negatives, ExpoProps.positives. destruct neg; apply filter_ext; intros v; rewrite zero_same, Hlt;
    destruct (ExpoProps.is_zero into v), (lt v zero); reflexivity.
Qed.
Lemma expo_shown u start time size scale mm rs vs h (a : list (kv Vl)) :
  config_fits ln (IExpo size scale mm rs) -> (forall v, In v vs -> f64_is_finite (into v) = true) -> Forall (value_fits (IExpo size scale mm rs)) (map inj vs) ->
  x_run ln plus lt zero into (x_new zero tmin tmax (Z.of_N size) scale) vs = Some h ->
  (rs = true -> number_typed u (total u (map inj vs)) -> into (x_sum h) = as_float (total u (map inj vs))) ->
  extremes u (map inj vs) (into (x_min h)) (into (x_max h)) ->
  shows_expo val u start time ln size scale mm rs (map inj vs) a (OtlpModel.epoint_msg num into start time (expo_point zero (map (w_attr val) a) mm rs h)).
Proof using Hinto Hlt Hprj.
  intros (Hsz & Hsc & Hln) Hf Hv Hr Hsum Hext.
  assert (Hn : scale = 20 -> forall v, In v vs -> ExpoProps.is_zero into v = true \/ ExpoProps.normal into v).
  { intros E v Hin. rewrite Forall_map, Forall_forall in Hv. specialize (Hv v Hin E). rewrite zero_same in Hv. unfold MetricWireSpec.magnitude in Hv. rewrite Hinto in Hv. exact Hv. }
  assert (Hn' : scale = 20 -> forall v, In v vs -> ExpoProps.finite into v = true -> ExpoProps.is_zero into v = true \/ ExpoProps.normal into v) by (intros E v Hin _; auto).
  assert (HM : 3 <= Z.of_N size) by lia.
  assert (Fin : filter (ExpoProps.finite into) vs = vs).
  { clear -Hf. induction vs as [|v vs IH]; [reflexivity|]. cbn [filter]. unfold ExpoProps.finite at 1. rewrite (Hf v (or_introl eq_refl)). f_equal. apply IH. intros w Hw. apply Hf. right. exact Hw. }
  destruct (expo_run ln plus lt zero tmin tmax into (Z.of_N size) scale vs Hln Hsc HM Hf Hn) as (h' & R & Rs & Lp & Ln & Rc & Rz & Sp & Sn & _). rewrite Hr in R. injection R as <-.
  unfold shows_expo, OtlpModel.epoint_msg, expo_point. cbn [OtlpModel.pp_attrs OtlpModel.pp_start OtlpModel.pp_time OtlpModel.pp_count OtlpModel.pp_sum OtlpModel.pp_scale OtlpModel.pp_threshold OtlpModel.pp_zero OtlpModel.pp_pos OtlpModel.pp_neg OtlpModel.pp_min OtlpModel.pp_max
    OtlpModel.e_attrs OtlpModel.e_count OtlpModel.e_min OtlpModel.e_max OtlpModel.e_sum OtlpModel.e_scale OtlpModel.e_zero OtlpModel.e_pos OtlpModel.e_neg OtlpModel.e_threshold].
  do 3 (split; [reflexivity|]). split; [rewrite map_length; exact Rc|]. split; [intros E; rewrite E; apply Hsum, E|]. split; [exact Rs|]. split; [reflexivity|].
  split. { rewrite Rz, filter_mapped, map_length. unfold ExpoProps.zeros. do 2 f_equal. apply filter_ext. intros v. rewrite zero_same. reflexivity. }
  assert (Near : forall neg b, (neg = false /\ b = x_pos h) \/ (neg = true /\ b = x_neg h) -> shows_side ln size (x_scale h) (side neg (map inj vs)) (eb_start b, eb_counts b)).
  { intros neg b Hb. rewrite side_same. unfold shows_side. cbn [snd fst]. rewrite map_length. split; [|split; [|split]].
    - unfold elen in Lp, Ln. destruct Hb as [[_ ->]|[_ ->]]; lia.
    - destruct Hb as [[-> ->]|[-> ->]]; assumption.
    - intros Hs i. rewrite filter_mapped, map_length.
      destruct (ExpoProps.C49_buckets_exact_up_to_scale_zero ln T plus lt zero tmin tmax into (Z.of_N size) scale vs h i Hln Hsc HM Hn' Hr Hs) as [E1 E2]. rewrite Fin in E1, E2.
      assert (Eq : forall l, filter (fun x => in_power_bucket (x_scale h) i (inj x)) l = filter (ExpoProps.in_bucket into (x_scale h) i) l).
      { intros l. apply filter_ext. intros v. unfold in_power_bucket, ExpoProps.in_bucket, MetricWireSpec.magnitude, ExpoProps.magnitude. rewrite Hinto. reflexivity. }
      rewrite Eq. destruct Hb as [[-> ->]|[-> ->]]; [exact E1|exact E2].
    - intros Hs Hok eps He. destruct (ExpoProps.C49_buckets_up_to_log_error ln eps T plus lt zero tmin tmax into (Z.of_N size) scale vs h Hok He Hsc HM Hn' Hr Hs) as (bucket & B1 & B2 & B3). rewrite Fin in B1, B2, B3.
      exists (fun v => bucket (prj v)). split.
      + intros v Hin. apply in_map_iff in Hin. destruct Hin as (w & <- & Hw). unfold near_power_bucket, MetricWireSpec.magnitude. rewrite Hprj, Hinto. apply B1.
        * destruct neg; apply filter_In in Hw; apply Hw.
        * destruct neg; apply filter_In in Hw; destruct Hw as [_ Hw]; apply andb_prop in Hw; destruct Hw as [Hw _]; apply negb_true_iff, Hw.
      + intros i. rewrite filter_mapped, map_length. rewrite (filter_ext _ (fun v => (bucket v =? i)%Z)) by (intros v; rewrite Hprj; reflexivity). destruct Hb as [[-> ->]|[-> ->]]; [apply B2|apply B3]. }
  split; [apply (Near false); auto|]. split; [apply (Near true); auto|]. split; [intros ->; split; reflexivity|]. intros ->. eexists _, _. do 2 (split; [reflexivity|]). exact Hext.
Qed.
End shown.

(** Sums and extremes. *)
Lemma all_finite {T} (into : T -> f64) vs : (forall v, In v vs -> f64_is_finite (into v) = true) -> filter (ExpoProps.finite into) vs = vs.
Proof.
  intros Hf. induction vs as [|v vs IH]; [reflexivity|]. cbn [filter]. unfold ExpoProps.finite at 1. rewrite (Hf v (or_introl eq_refl)). f_equal. apply IH. intros w Hw. apply Hf. right. exact Hw.
Qed.
Lemma z_expo ln u size scale zs h : u <> F64n -> Forall (number_typed u) (map NZ zs) -> zs <> [] -> (forall v, In v zs -> f64_is_finite (f64_of_Z v) = true) ->
  x_run ln (fun x y => wrap u (x + y)) Z.ltb 0 f64_of_Z (x_new 0 (z_min u) (z_max u) size scale) zs = Some h ->
  x_sum h = fold_left (fun x y => wrap u (x + y)) zs 0 /\ extremes u (map NZ zs) (f64_of_Z (x_min h)) (f64_of_Z (x_max h)).
Proof.
  intros Hu Ht Hz Hf Hr. set (good := fun z => z_min u <= z <= z_max u).
  destruct (ExpoProps.C48_sum_min_max ln Z (fun x y => wrap u (x + y)) Z.ltb 0 (z_min u) (z_max u) f64_of_Z size scale good IZR zs h) as (H0 & _ & H1).
  - intros x y _ _. rewrite Z.ltb_lt. split; [apply IZR_lt|apply lt_IZR].
  - unfold good. destruct u; cbn; lia.
  - unfold good. destruct u; cbn; lia.
  - intros x [Hx1 Hx2]. split; apply IZR_le; assumption.
  - intros v Hv _. rewrite Forall_map, Forall_forall in Ht. specialize (Ht v Hv). unfold good. destruct u; cbn in *; [lia..|contradiction].
  - exact Hr.
  - rewrite all_finite in H0, H1 by exact Hf. split; [exact H0|]. destruct (H1 Hz) as ((x & X1 & X2) & H2 & (y & Y1 & Y2) & H4). apply eq_IZR in X2, Y2.
    assert (G : exists x y, In x (ints (map NZ zs)) /\ In y (ints (map NZ zs)) /\ f64_of_Z (x_min h) = f64_of_Z x /\ f64_of_Z (x_max h) = f64_of_Z y /\
      forall z, In z (ints (map NZ zs)) -> x <= z <= y).
    { rewrite ints_mapped. exists x, y. rewrite X2, Y2. do 4 (split; [auto|]). intros z Hin. rewrite <- X2, <- Y2. split; apply le_IZR; auto. }
    destruct u; [exact G|exact G|contradiction].
Qed.
Lemma f_expo ln size scale fs h : fs <> [] -> (forall v, In v fs -> f64_is_finite v = true) ->
  x_run ln f64_add f64_ltb (f64_of_Z 0) (fun f => f) (x_new (f64_of_Z 0) f64_MIN f64_MAX size scale) fs = Some h ->
  x_sum h = fold_left f64_add fs (f64_of_Z 0) /\ extremes F64n (map NF fs) (x_min h) (x_max h).
Proof.
  intros Hz Hf Hr.
  destruct (ExpoProps.C48_sum_min_max ln f64 f64_add f64_ltb (f64_of_Z 0) f64_MIN f64_MAX (fun f => f) size scale (fun f => f64_is_finite f = true) f64R fs h) as (H0 & _ & H1).
  - intros x y Hx Hy. apply (proj2 C47_number_types x y Hx Hy).
  - apply f64_MIN_val.
  - apply f64_MAX_val.
  - intros x Hx. apply (proj2 C47_number_types x x Hx Hx).
  - intros v Hv _. auto.
  - exact Hr.
  - rewrite all_finite in H0, H1 by exact Hf. split; [exact H0|]. intros _. rewrite floats_mapped. destruct (H1 Hz) as (A & B & C & D). split; [exact A|]. split; [exact C|]. intros f Hin. split; auto.
Qed.
