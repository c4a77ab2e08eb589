(** Theorems for C47: explicit-bucket histograms. *)
From Coq Require Import List Bool Arith NArith ZArith Reals Lia Lra Sorting.Sorted Permutation.
From Flocq Require Import Core IEEE754.BinarySingleNaN IEEE754.Binary IEEE754.Bits.
From Verif Require Import F64 F64Proofs HistModel AttrModel ValueMapModel ValueMapProofs ValueMapProps.
Import ListNotations.
Open Scope nat_scope.

(** * The order on floats that are not NaN *)
Inductive ext := MInf | Fin (r : R) | PInf.
Definition ext_of (x : f64) : ext :=
  match x with
  | B754_infinity _ _ true => MInf
  | B754_infinity _ _ false => PInf
  | _ => Fin (f64R x)
  end.
Definition elt (a b : ext) : Prop :=
  match a, b with
  | MInf, MInf => False | MInf, _ => True
  | Fin x, Fin y => (x < y)%R | Fin _, PInf => True
  | _, _ => False
  end.
Lemma ltb_ext x y : f64_is_nan x = false -> f64_is_nan y = false -> (f64_ltb x y = true <-> elt (ext_of x) (ext_of y)).
Proof.
  intros Hx Hy. destruct (f64_is_finite x) eqn:Fx, (f64_is_finite y) eqn:Fy.
  - rewrite ltb_fin by assumption. destruct x as [|[|]| |], y as [|[|]| |]; try discriminate; reflexivity.
  - destruct y as [|[|]| |]; try discriminate; destruct x as [[|]|[|]| |[|]]; try discriminate; cbn; split; auto; discriminate.
  - destruct x as [|[|]| |]; try discriminate; destruct y as [[|]|[|]| |[|]]; try discriminate; cbn; split; auto; discriminate || contradiction.
  - destruct x as [|[|]| |]; try discriminate; destruct y as [|[|]| |]; try discriminate; cbn; split; auto; discriminate || contradiction.
Qed.
Lemma leb_ext x y : f64_is_nan x = false -> f64_is_nan y = false -> (f64_leb x y = true <-> ~ elt (ext_of y) (ext_of x)).
Proof.
  intros Hx Hy. rewrite <- ltb_ext by assumption. unfold f64_ltb, f64_leb. rewrite (cmp_swap x y).
  assert (H : f64_cmp x y <> None).
  { destruct x as [|[|]| |], y as [|[|]| |]; try discriminate; destruct (f64_is_finite _); cbn; discriminate. }
  destruct (f64_cmp x y) as [[]|]; cbn; split; intros; try congruence; try (intro; discriminate).
Qed.

Lemma elt_trans a b c : elt a b -> elt b c -> elt a c.
Proof. destruct a, b, c; cbn; intros; try contradiction; auto; lra. Qed.
Lemma elt_cotrans a b c : elt a c -> elt a b \/ elt b c.
Proof. destruct a, b, c; cbn; intros; try contradiction; auto. destruct (Rlt_dec r r0); [auto|right; lra]. Qed.
Lemma ltb_nan x y : f64_is_nan y = true -> f64_ltb x y = false.
Proof. destruct y as [|[|]| |]; try discriminate. destruct x as [[|]|[|]| |[|]]; reflexivity. Qed.
Lemma ltb_nan_l x y : f64_is_nan x = true -> f64_ltb x y = false.
Proof. destruct x as [|[|]| |]; try discriminate. destruct y as [[|]|[|]| |[|]]; reflexivity. Qed.

(** * Boundaries *)
Definition no_nan (l : list f64) : Prop := forall x, In x l -> f64_is_nan x = false.
Definition sorted (l : list f64) : Prop := StronglySorted (fun x y => f64_leb x y = true) l.

(** Boundaries given with an instrument are strictly increasing finite numbers. *)
Theorem C47_validated_boundaries : forall l, bounds_valid l = true ->
  no_nan l /\ sorted l /\ (forall x, In x l -> f64_is_finite x = true) /\ StronglySorted (fun x y => (f64R x < f64R y)%R) l.
Proof.
  intros l H. unfold bounds_valid in H. apply andb_true_iff in H. destruct H as [H1 H2].
  assert (Hf : forall x, In x l -> f64_is_finite x = true).
  { intros x Hx. rewrite forallb_forall in H1. specialize (H1 x Hx). unfold f64_is_inf in H1. destruct (f64_is_nan x), (f64_is_finite x); try discriminate; reflexivity. }
  assert (Hs : StronglySorted (fun x y => (f64R x < f64R y)%R) l).
  { clear H1. induction l as [|x l IH]; [constructor|]. assert (IHs : StronglySorted (fun x y => (f64R x < f64R y)%R) l).
    { apply IH; [destruct l; [reflexivity|]; cbn [increasing] in H2; apply andb_true_iff in H2; apply H2|intros y Hy; apply Hf; right; exact Hy]. }
    constructor; [exact IHs|]. destruct l as [|y l]; [constructor|]. cbn [increasing] in H2. apply andb_true_iff in H2. destruct H2 as [H2 _].
    assert (Hxy : (f64R x < f64R y)%R).
    { destruct (Rlt_dec (f64R x) (f64R y)) as [|Hn]; [assumption|]. rewrite (proj2 (leb_fin y x ltac:(apply Hf; right; left; reflexivity) ltac:(apply Hf; left; reflexivity))) in H2; [discriminate|lra]. }
    constructor; [exact Hxy|]. inversion IHs as [|? ? _ F]; subst. eapply Forall_impl; [|exact F]. cbn. intros z Hz. lra. }
  split; [intros x Hx; apply fin_not_nan, Hf, Hx|]. split; [|split; [exact Hf|exact Hs]].
  unfold sorted. clear H1 H2. induction Hs as [|x l Hs IH F]; constructor.
  - apply IH. intros y Hy. apply Hf. right. exact Hy.
  - rewrite Forall_forall in *. intros y Hy. apply leb_fin; [apply Hf; left; reflexivity|apply Hf; right; exact Hy|]. specialize (F y Hy). lra.
Qed.
Print Assumptions C47_validated_boundaries.
(** Boundaries given with a view end up sorted and free of NaN; none other is lost. *)
Theorem C47_view_boundaries : forall srt l, f64_sort_ok srt ->
  no_nan (srt (retained l)) /\ sorted (srt (retained l)) /\ forall x, In x (srt (retained l)) <-> In x l /\ f64_is_nan x = false.
Proof.
  intros srt l Hs. assert (Hn : forallb (fun v => negb (f64_is_nan v)) (retained l) = true).
  { apply forallb_forall. intros x Hx. apply filter_In in Hx. apply Hx. }
  destruct (Hs _ Hn) as [P S].
  assert (Hin : forall x, In x (srt (retained l)) <-> In x l /\ f64_is_nan x = false).
  { intros x. split.
    - intros Hx. apply (Permutation_in _ P) in Hx. apply filter_In in Hx. destruct Hx as [H1 H2]. apply negb_true_iff in H2. auto.
    - intros [H1 H2]. apply (Permutation_in _ (Permutation_sym P)), filter_In. rewrite H2. auto. }
  split; [intros x Hx; apply Hin, Hx|]. split; [exact S|exact Hin].
Qed.
Print Assumptions C47_view_boundaries.

(** * The bucket of a measurement *)
Lemma split_sorted f l : f64_is_nan f = false -> no_nan l -> sorted l ->
  exists a b, l = a ++ b /\ forallb (fun x => f64_ltb x f) a = true /\ forallb (fun x => negb (f64_ltb x f)) b = true.
Proof.
  intros Hf Hn Hs. induction Hs as [|x l Hs IH F]; [exists [], []; auto|].
  destruct IH as (a & b & E & Ha & Hb); [intros y Hy; apply Hn; right; exact Hy|].
  destruct (f64_ltb x f) eqn:Ex.
  - exists (x :: a), b. rewrite E. cbn. rewrite Ex, Ha. auto.
  - exists [], (x :: l). split; [reflexivity|]. split; [reflexivity|]. apply forallb_forall. intros y [<-|Hy]; [rewrite Ex; reflexivity|].
    apply negb_true_iff. destruct (f64_ltb y f) eqn:Ey; [|reflexivity]. rewrite Forall_forall in F. specialize (F y Hy).
    assert (Nx : f64_is_nan x = false) by (apply Hn; left; reflexivity). assert (Ny : f64_is_nan y = false) by (apply Hn; right; exact Hy).
    apply leb_ext in F; try assumption. apply ltb_ext in Ey; try assumption. destruct (elt_cotrans _ (ext_of x) _ Ey) as [H|H]; [contradiction|].
    apply ltb_ext in H; try assumption. congruence.
Qed.
Theorem C47_bucket : forall T (into_float : T -> f64) pp bounds v i,
  partition_point_ok pp -> no_nan bounds -> sorted bounds -> f64_is_nan (into_float v) = false -> i <= length bounds ->
  (bucket_index into_float pp bounds v = i <->
   (forall b, nth_error bounds (i - 1) = Some b -> 0 < i -> f64_ltb b (into_float v) = true) /\
   (forall b, nth_error bounds i = Some b -> f64_leb (into_float v) b = true)).
Proof.
  intros T into_float pp bounds v i [_ Hpp] Hn Hs Hv Hi. unfold bucket_index. set (f := into_float v) in *.
  destruct (split_sorted f bounds Hv Hn Hs) as (a & b & E & Ha & Hb). rewrite E, (Hpp _ a b Ha Hb). rewrite forallb_forall in Ha, Hb.
  assert (Hle : forall x, In x bounds -> (f64_leb f x = true <-> f64_ltb x f = false)).
  { intros x Hx. assert (Nx := Hn x Hx). rewrite leb_ext by assumption. rewrite <- ltb_ext by assumption. destruct (f64_ltb x f); split; intros; auto; try discriminate. exfalso; auto. }
  split.
  - intros <-. split.
    + intros x Hx Hl. apply Ha. rewrite nth_error_app1 in Hx by lia. eapply nth_error_In, Hx.
    + intros x Hx. rewrite nth_error_app2 in Hx by lia. apply nth_error_In in Hx. apply Hle; [rewrite E; apply in_or_app; auto|]. apply negb_true_iff, Hb, Hx.
  - intros [H1 H2]. destruct (Nat.lt_trichotomy (length a) i) as [Hlt|[->|Hlt]]; [|reflexivity|].
    + exfalso. rewrite E, app_length in Hi. destruct (nth_error (a ++ b) (i - 1)) as [x|] eqn:Ex; [|apply nth_error_None in Ex; rewrite app_length in Ex; lia].
      specialize (H1 x eq_refl ltac:(lia)). rewrite nth_error_app2 in Ex by lia. apply nth_error_In in Ex. specialize (Hb x Ex). rewrite H1 in Hb. discriminate.
    + exfalso. destruct (nth_error (a ++ b) i) as [x|] eqn:Ex; [|apply nth_error_None in Ex; rewrite app_length in Ex; lia].
      specialize (H2 x eq_refl). assert (Hx := Ex). rewrite nth_error_app1 in Ex by lia. apply nth_error_In in Ex. specialize (Ha x Ex).
      apply Hle in H2; [congruence|]. rewrite E. eapply nth_error_In, Hx.
Qed.
Print Assumptions C47_bucket.
(** The index is always one of the buckets; a NaN goes to the first. *)
Theorem C47_index_in_range : forall T (into_float : T -> f64) pp bounds v, partition_point_ok pp ->
  bucket_index into_float pp bounds v < length (b_counts (h_create v v v bounds)) /\
  (f64_is_nan (into_float v) = true -> bucket_index into_float pp bounds v = 0).
Proof.
  intros T into_float pp bounds v [Hpp1 Hpp2]. split.
  - unfold h_create, b_new. cbn [b_counts]. rewrite repeat_length. unfold bucket_index. specialize (Hpp1 (fun x => f64_ltb x (into_float v)) bounds). lia.
  - intros Hv. unfold bucket_index. apply (Hpp2 _ [] bounds); [reflexivity|]. apply forallb_forall. intros x _. rewrite ltb_nan by exact Hv. reflexivity.
Qed.
Print Assumptions C47_index_in_range.

(** * Counts and totals, for any list of measurements *)
Definition counted {T} (index : T -> nat) (i : nat) (vs : list T) : N := N.of_nat (length (filter (fun v => index v =? i) vs)).
Lemma bump_nth : forall l i j, nth_error (bump i l) j = if i =? j then option_map (fun x => (x + 1)%N) (nth_error l j) else nth_error l j.
Proof.
  induction l as [|x l IH]; intros [|i] [|j]; cbn; try reflexivity.
  - destruct (i =? j); reflexivity.
  - apply IH.
Qed.
Lemma bump_length : forall l i, length (bump i l) = length l.
Proof. induction l as [|x l IH]; intros [|i]; cbn; auto. Qed.
Definition nsum (l : list N) : N := fold_right N.add 0%N l.
Lemma bump_sum : forall l i, i < length l -> nsum (bump i l) = (nsum l + 1)%N.
Proof.
  unfold nsum. induction l as [|x l IH]; intros [|i] H; cbn [length bump fold_right] in *; [lia|lia| |].
  - generalize (fold_right N.add 0%N l). intros n. lia.
  - rewrite IH by lia. generalize (fold_right N.add 0%N l). intros n. lia.
Qed.
Theorem C47_counts : forall T plus lt (zero tmin tmax : T) into_float pp bounds vs, partition_point_ok pp ->
  let b := fold_left (h_update plus lt into_float pp bounds) vs (h_create zero tmin tmax bounds) in
  length (b_counts b) = length bounds + 1 /\
  (forall i, i < length bounds + 1 -> nth_error (b_counts b) i = Some (counted (bucket_index into_float pp bounds) i vs)) /\
  b_count b = N.of_nat (length vs) /\ nsum (b_counts b) = b_count b /\ b_total b = fold_left plus vs zero.
Proof.
  intros T plus lt zero tmin tmax into_float pp bounds vs Hpp. cbv zeta.
  induction vs as [|v vs IH] using rev_ind.
  - cbn [fold_left]. unfold h_create, b_new. cbn [b_counts b_count b_total]. rewrite repeat_length. split; [reflexivity|]. split.
    + intros i Hi. rewrite nth_error_repeat by exact Hi. reflexivity.
    + split; [reflexivity|]. split; [|reflexivity]. generalize (length bounds + 1). intros n. induction n; cbn; auto.
  - rewrite !fold_left_app. cbn [fold_left]. set (b := fold_left _ vs _) in *. destruct IH as (H1 & H2 & H3 & H4 & H5).
    assert (Hlt : bucket_index into_float pp bounds v < length (b_counts b)).
    { rewrite H1. destruct Hpp as [Hp _]. unfold bucket_index. specialize (Hp (fun x => f64_ltb x (into_float v)) bounds). lia. }
    unfold h_update, b_update. cbn [b_counts b_count b_total]. rewrite bump_length. split; [exact H1|]. split; [|split; [|split]].
    + intros i Hi. rewrite bump_nth, (H2 i Hi). unfold counted. rewrite filter_app, app_length. cbn [filter]. destruct (Nat.eqb_spec (bucket_index into_float pp bounds v) i); cbn; f_equal; lia.
    + rewrite H3, app_length. cbn. lia.
    + rewrite bump_sum by exact Hlt. rewrite H4. reflexivity.
    + rewrite H5. reflexivity.
Qed.
Print Assumptions C47_counts.

(** Minimum and maximum, for measurements that the number type orders and bounds:
    all of i64 and u64, and the finite floats. *)
Theorem C47_min_max : forall T plus lt (zero tmin tmax : T) into_float pp bounds (good : T -> Prop) (key : T -> R) vs,
  (forall x y, good x -> good y -> (lt x y = true <-> (key x < key y)%R)) ->
  good tmin -> good tmax -> (forall x, good x -> (key tmin <= key x <= key tmax)%R) ->
  (forall v, In v vs -> good v) -> vs <> [] ->
  let b := fold_left (h_update plus lt into_float pp bounds) vs (h_create zero tmin tmax bounds) in
  (exists v, In v vs /\ key (b_min b) = key v) /\ (forall v, In v vs -> (key (b_min b) <= key v)%R) /\
  (exists v, In v vs /\ key (b_max b) = key v) /\ (forall v, In v vs -> (key v <= key (b_max b))%R).
Proof.
  intros T plus lt zero tmin tmax into_float pp bounds good key vs Hlt Hmin Hmax Hb Hg Hne. cbv zeta.
  assert (G : let b := fold_left (h_update plus lt into_float pp bounds) vs (h_create zero tmin tmax bounds) in
    good (b_min b) /\ good (b_max b) /\
    (vs = [] /\ b_min b = tmax /\ b_max b = tmin \/
    (exists v, In v vs /\ key (b_min b) = key v) /\ (forall v, In v vs -> (key (b_min b) <= key v)%R) /\
    (exists v, In v vs /\ key (b_max b) = key v) /\ (forall v, In v vs -> (key v <= key (b_max b))%R))).
  { clear Hne. cbv zeta. induction vs as [|v vs IH] using rev_ind; [cbn; split; [exact Hmax|split; [exact Hmin|left; auto]]|].
    rewrite fold_left_app. cbn [fold_left]. set (b := fold_left _ vs _) in *.
    destruct IH as (G1 & G2 & G3); [intros x Hx; apply Hg, in_or_app; auto|]. unfold h_update, b_update. cbn [b_min b_max].
    assert (Gv : good v) by (apply Hg, in_or_app; right; left; reflexivity).
    assert (E1 := Hlt v (b_min b) Gv G1). assert (E2 := Hlt (b_max b) v G2 Gv).
    split; [destruct (lt v (b_min b)); assumption|]. split; [destruct (lt (b_max b) v); assumption|]. right.
    assert (Hv : In v (vs ++ [v])) by (apply in_or_app; right; left; reflexivity).
    destruct G3 as [(-> & M1 & M2)|((m & Hm & Em) & M2 & (M & HM & EM) & M4)].
    - cbn. rewrite M1 in *. rewrite M2 in *. pose proof (Hb v Gv) as Bv. split; [|split; [|split]].
      + exists v. split; [auto|]. destruct (lt v tmax); [reflexivity|]. destruct (Rlt_dec (key v) (key tmax)) as [L|L]; [apply E1 in L; discriminate|lra].
      + intros x [<-|[]]. destruct (lt v tmax); [lra|]. destruct (Rlt_dec (key v) (key tmax)) as [L|L]; [apply E1 in L; discriminate|lra].
      + exists v. split; [auto|]. destruct (lt tmin v); [reflexivity|]. destruct (Rlt_dec (key tmin) (key v)) as [L|L]; [apply E2 in L; discriminate|lra].
      + intros x [<-|[]]. destruct (lt tmin v); [lra|]. destruct (Rlt_dec (key tmin) (key v)) as [L|L]; [apply E2 in L; discriminate|lra].
    - split; [|split; [|split]].
      + destruct (lt v (b_min b)); [exists v; auto|]. exists m. split; [apply in_or_app; auto|exact Em].
      + intros x Hx. apply in_app_or in Hx. destruct (lt v (b_min b)) eqn:El.
        * assert (key v < key (b_min b))%R by (apply E1; reflexivity). destruct Hx as [Hx|[<-|[]]]; [specialize (M2 x Hx); lra|lra].
        * destruct Hx as [Hx|[<-|[]]]; [auto|]. destruct (Rlt_dec (key v) (key (b_min b))) as [L|L]; [apply E1 in L; discriminate|lra].
      + destruct (lt (b_max b) v); [exists v; auto|]. exists M. split; [apply in_or_app; auto|exact EM].
      + intros x Hx. apply in_app_or in Hx. destruct (lt (b_max b) v) eqn:El.
        * assert (key (b_max b) < key v)%R by (apply E2; reflexivity). destruct Hx as [Hx|[<-|[]]]; [specialize (M4 x Hx); lra|lra].
        * destruct Hx as [Hx|[<-|[]]]; [auto|]. destruct (Rlt_dec (key (b_max b)) (key v)) as [L|L]; [apply E2 in L; discriminate|lra]. }
  cbv zeta in G. destruct G as (_ & _ & [(E & _)|G]); [contradiction|exact G].
Qed.
Print Assumptions C47_min_max.

(** The number types of the SDK meet those conditions. *)
Definition f64_MAX : f64 := f64_lit (2 ^ 53 - 1) 971.
Definition f64_MIN : f64 := f64_neg f64_MAX.
Lemma f64_MAX_val : f64_is_finite f64_MAX = true /\ f64R f64_MAX = (bpow radix2 1024 - bpow radix2 971)%R.
Proof.
  split; [reflexivity|]. assert (E : f64_MAX = B754_finite 53 1024 false (2 ^ 53 - 1) 971 eq_refl).
  { unfold f64_MAX, f64_lit. apply Binary.B2FF_inj. vm_compute. reflexivity. }
  rewrite E. unfold f64R, B2R, F2R. cbn [Fnum Fexp cond_Zopp]. change (Z.pos (2 ^ 53 - 1)) with (2 ^ 53 - 1)%Z.
  replace (bpow radix2 1024) with (bpow radix2 53 * bpow radix2 971)%R by (rewrite <- bpow_plus; reflexivity).
  rewrite minus_IZR, bpow53. ring.
Qed.
Lemma f64_MIN_val : f64_is_finite f64_MIN = true /\ f64R f64_MIN = (- f64R f64_MAX)%R.
Proof. split; [reflexivity|]. unfold f64_MIN, f64_neg, f64R, b64_opp. apply Binary.B2R_Bopp. Qed.
Theorem C47_number_types :
  (forall lo hi x y, (lo <= x <= hi)%Z -> (lo <= y <= hi)%Z -> ((x <? y)%Z = true <-> (IZR x < IZR y)%R) /\ (IZR lo <= IZR x <= IZR hi)%R) /\
  (forall x y, f64_is_finite x = true -> f64_is_finite y = true -> (f64_ltb x y = true <-> (f64R x < f64R y)%R) /\ (f64R f64_MIN <= f64R x <= f64R f64_MAX)%R).
Proof.
  split.
  - intros lo hi x y [Hx1 Hx2] Hy. split; [rewrite Z.ltb_lt; split; [apply IZR_lt|apply lt_IZR]|]. split; apply IZR_le; assumption.
  - intros x y Hx Hy. split; [apply ltb_fin; assumption|]. rewrite (proj2 f64_MIN_val), (proj2 f64_MAX_val).
    pose proof (Binary.abs_B2R_le_emax_minus_prec 53 1024 eq_refl x) as B. change (1024 - 53)%Z with 971%Z in B. fold (f64R x) in B. apply Rabs_le_inv in B. lra.
Qed.
Print Assumptions C47_number_types.
(** For an infinite measurement the claim about the minimum fails: the point
    reports f64::MAX, which nobody recorded. *)
Definition f64_inf : f64 := B754_infinity 53 1024 false.
Theorem C110_min_of_infinity_refuted : ~ (forall bounds vs, vs <> [] -> (forall v, In v vs -> f64_is_nan v = false) ->
  let b := fold_left (h_update f64_add f64_ltb (fun v => v) pp_linear bounds) vs (h_create (f64_of_Z 0) f64_MIN f64_MAX bounds) in
  exists v, In v vs /\ f64_eqb (b_min b) v = true).
Proof.
  intros H. destruct (H [] [f64_inf]) as (v & [<-|[]] & E); [discriminate|intros v [<-|[]]; reflexivity|]. vm_compute in E. discriminate.
Qed.
Print Assumptions C110_min_of_infinity_refuted.

(** * The points of a histogram stream *)
(** Under every schedule, a collected point counts, bucket by bucket, exactly the
    measurements of its attribute set in its window. *)
Theorem C47_stream : forall Vl T plus lt (zero tmin tmax : T) into_float pp bounds veq yes srt keep limit delta acts s o p,
  sorter_ok (Vl := Vl) srt -> partition_point_ok pp ->
  stream_run veq yes srt keep (h_create zero tmin tmax bounds) (h_update plus lt into_float pp bounds) limit delta acts = Some s ->
  In o (v_outs s) -> In p (o_pts o) -> forall record_sum record_min_max,
  let vs := recorded veq (sort_and_dedup srt (p_attrs p)) (window (p_from p) (p_upto p) (v_hist s)) in
  let q := h_point zero bounds record_sum record_min_max (p_val p) in
  o_start o <= p_upto p <= o_stop o /\
  hp_bounds q = bounds /\ hp_count q = N.of_nat (length vs) /\ nsum (hp_counts q) = hp_count q /\ length (hp_counts q) = length bounds + 1 /\
  (forall i, i < length bounds + 1 -> nth_error (hp_counts q) i = Some (counted (bucket_index into_float pp bounds) i vs)) /\
  hp_sum q = (if record_sum then fold_left plus vs zero else zero) /\
  (* a minimum and a maximum are reported exactly if asked for *)
  (record_min_max = true -> hp_min q = Some (b_min (p_val p)) /\ hp_max q = Some (b_max (p_val p))) /\
  (record_min_max = false -> hp_min q = None /\ hp_max q = None) /\
  p_val p = fold_left (h_update plus lt into_float pp bounds) vs (h_create zero tmin tmax bounds).
Proof.
  intros Vl T plus lt zero tmin tmax into_float pp bounds veq yes srt keep limit delta acts s o p Hs Hpp H Ho Hp rs rm. cbv zeta.
  pose proof (stream_inv _ _ _ _ _ _ _ _ _ _ Hs H) as I.
  assert (O := proj1 (Forall_forall _ _) (vi_outs _ _ _ _ _ _ _ _ I) o Ho). destruct (oo_pts _ _ _ _ _ _ _ _ O p Hp) as ([X1 X2] & X3 & _).
  unfold agg in X2. rewrite recorded_vals in X2. set (vs := recorded _ _ _) in *.
  destruct (C47_counts T plus lt zero tmin tmax into_float pp bounds vs Hpp) as (C1 & C2 & C3 & C4 & C5). rewrite <- X2 in C1, C2, C3, C4, C5. unfold h_point. cbn [hp_bounds hp_count hp_counts hp_sum].
  repeat (split; [solve [reflexivity | assumption | lia]|]). split; [destruct rs; [exact C5|reflexivity]|].
  split; [intros ->; split; reflexivity|split; [intros ->; split; reflexivity|exact X2]].
Qed.
Print Assumptions C47_stream.

(** * Examples *)
Lemma pp_linear_ok : partition_point_ok pp_linear.
Proof.
  split.
  - intros p l. induction l as [|x l IH]; cbn; [lia|]. destruct (p x); lia.
  - intros p a b Ha Hb. induction a as [|x a IH]; cbn in *; [|apply andb_true_iff in Ha; destruct Ha as [-> Ha]; f_equal; auto].
    destruct b as [|y b]; [reflexivity|]. cbn in *. destruct (p y); [discriminate|reflexivity].
Qed.
(** Bounds 0, 5, 10 and the measurements -1, 0, 5, 6, 10, 11. *)
Example C47_nonvacuous : let bounds := map f64_of_Z [0; 5; 10]%Z in
  bounds_valid bounds = true /\ partition_point_ok pp_linear /\
  map (bucket_index f64_of_Z pp_linear bounds) [-1; 0; 5; 6; 10; 11]%Z = [0; 0; 1; 2; 2; 3] /\
  fold_left (h_update Z.add Z.ltb f64_of_Z pp_linear bounds) [-1; 0; 5; 6; 10; 11]%Z (h_create 0 (- 2 ^ 63) (2 ^ 63 - 1) bounds)%Z =
  mk_b [2; 1; 2; 1]%N 6%N 31%Z (-1)%Z 11%Z.
Proof. cbv zeta. split; [vm_compute; reflexivity|]. split; [exact pp_linear_ok|]. split; vm_compute; reflexivity. Qed.
