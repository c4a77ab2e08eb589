(** Metrics from the instruments to the OTLP request: supporting lemmas. *)
From Coq Require Import String List Bool Arith NArith ZArith Reals Lia Lra Permutation Sorting.Sorted.
From Verif Require Import Str F64 F64Proofs InstrModel ProviderModel AttrModel AttrProofs ValueMapModel ValueMapProps SeqModel SeqSpec
  PipelineModel PipelineProps ProduceModel EndModel EndSpec EndProps HistModel HistProps MetricWireModel MetricWireSpec MetricExpoProofs.
From Verif Require KvModel OtlpModel ProtoModel ProtoSpec ProtoProps ExpoModel ExpoProofs ExpoProps.
From Flocq Require IEEE754.BinarySingleNaN IEEE754.Binary.
Import ListNotations.
Local Open Scope nat_scope.

Section typed.
Context {Vl : Type} (val : Vl -> KvModel.value).
Notation V := (list (kv Vl) * number)%type.
Notation attrs_typed := (attrs_typed val).
Notation calls_typed := (calls_typed val).
(** * The measurements of a stream have its number type *)
Context (sc_dec : forall x y : InstrModel.scope (kv Vl), {x = y} + {x <> y}) (views : list (instrument (kv Vl) -> option stream)).
Lemma feeds_num a k : feeds sc_dec views a k = true -> PipelineModel.a_num a = k_num k.
Proof. unfold feeds. intros H. apply existsb_exists in H. destruct H as (s & _ & H). destruct (key_dec sc_dec (out_key a s) k) as [<-|]; [reflexivity|discriminate]. Qed.
Lemma received_typed created k e : (forall h a v, nth_error created h = Some a -> brings e h v -> attrs_typed (fst v) /\ number_typed (PipelineModel.a_num a) (snd v)) ->
  Forall (fun x => attrs_typed (fst (snd x)) /\ number_typed (k_num k) (snd (snd x))) (received sc_dec views created k e).
Proof.
  intros H. apply Forall_forall. intros x Hx. destruct e as [a|h v|r obs]; cbn [received] in Hx; [destruct Hx|..].
  - destruct (nth_error created h) as [a|] eqn:E; [|destruct Hx]. destruct (_ && _ && feeds sc_dec views a k) eqn:F; [|destruct Hx]. destruct Hx as [<-|[]].
    apply andb_true_iff in F. destruct F as [_ F]. rewrite <- (feeds_num a k F). apply (H h a v E). split; reflexivity.
  - apply in_flat_map in Hx. destruct Hx as (h & _ & Hx). destruct (nth_error created h) as [a|] eqn:E; [|destruct Hx].
    destruct (_ && _ && feeds sc_dec views a k) eqn:F; [|destruct Hx]. apply in_flat_map in Hx. destruct Hx as (j & _ & Hx). apply in_map_iff in Hx. destruct Hx as (v & <- & Hv).
    apply andb_true_iff in F. destruct F as [_ F]. rewrite <- (feeds_num a k F). apply (H h a v E). exists j. exact Hv.
Qed.
Lemma expected_typed k es : forall created, calls_typed created es ->
  Forall (fun x => attrs_typed (fst (snd x)) /\ number_typed (k_num k) (snd (snd x))) (expected sc_dec views created k es).
Proof.
  induction es as [|e es IH]; intros created H; [constructor|]. cbn [expected]. destruct H as [H1 H2]. apply Forall_app. split; [apply received_typed, H1|apply IH, H2].
Qed.
Lemma calls_typed_app a : forall created b, calls_typed created (a ++ b) -> calls_typed (created ++ creations a) b.
Proof.
  induction a as [|e a IH]; intros created b H; cbn [List.app creations flat_map] in *; [rewrite app_nil_r; exact H|]. destruct H as [_ H]. rewrite app_assoc. apply IH, H.
Qed.
Lemma calls_typed_prefix a : forall created b, calls_typed created (a ++ b) -> calls_typed created a.
Proof.
  induction a as [|e a IH]; intros created b H; [exact I|]. cbn [List.app] in H. destruct H as [H1 H2]. split; [exact H1|]. eapply IH, H2.
Qed.
Lemma window_typed accepts p before recent c : calls_typed [] (before ++ recent) ->
  Forall (fun x => attrs_typed (fst x) /\ number_typed (k_num (c_key c)) (snd x)) (window_of sc_dec views accepts p before recent c).
Proof.
  intros H. unfold window_of. apply Forall_forall. intros x Hx. apply filter_In in Hx. destruct Hx as [Hx _]. apply in_map_iff in Hx. destruct Hx as (y & <- & Hy).
  destruct (per_collection p c).
  - pose proof (expected_typed (c_key c) recent (creations before)) as T. apply (calls_typed_app before [] recent) in H. specialize (T H). rewrite Forall_forall in T. exact (T y Hy).
  - pose proof (expected_typed (c_key c) (before ++ recent) [] H) as T. rewrite Forall_forall in T. exact (T y Hy).
Qed.
End typed.

(** * The aggregators *)
Lemma ints_all u l : u <> F64n -> Forall (number_typed u) l -> l = map NZ (ints l) /\ length (ints l) = length l.
Proof.
  intros Hu H. induction H as [|v l Hv _ [IH1 IH2]]; [split; reflexivity|]. destruct v as [z|f]; [|destruct u; [destruct Hv|destruct Hv|contradiction]].
  cbn [ints flat_map List.app map length]. fold (ints l). split; congruence.
Qed.
Lemma floats_all l : Forall (number_typed F64n) l -> l = map NF (floats l) /\ length (floats l) = length l.
Proof.
  intros H. induction H as [|v l Hv _ [IH1 IH2]]; [split; reflexivity|]. destruct v as [z|f]; [destruct Hv|].
  cbn [floats flat_map List.app map length]. fold (floats l). split; congruence.
Qed.
Lemma ints_finite u zs : u <> F64n -> Forall (number_typed u) (map NZ zs) -> forall z, In z zs -> f64_is_finite (f64_of_Z z) = true.
Proof.
  intros Hu H z Hz. rewrite Forall_map, Forall_forall in H. specialize (H z Hz). apply of_Z_finite. destruct u; [..|contradiction]; cbn [number_typed] in H; lia.
Qed.
Lemma floats_finite size scale mm rs fs : Forall (fun v => w_accepts (IExpo size scale mm rs) v = true) (map NF fs) -> forall f, In f fs -> f64_is_finite f = true.
Proof. intros H f Hf. rewrite Forall_map, Forall_forall in H. exact (H f Hf). Qed.
Lemma wrap_typed u z : u <> F64n -> number_typed u (NZ (wrap u z)).
Proof.
  intros H. destruct u; [..|contradiction]; cbn [wrap number_typed].
  - apply Z.mod_pos_bound. reflexivity.
  - pose proof (Z.mod_pos_bound (z + 2 ^ 63) (2 ^ 64) eq_refl). lia.
Qed.
Lemma sum_typed u zs : u <> F64n -> forall x, number_typed u (NZ x) -> number_typed u (NZ (fold_left (fun a v => wrap u (a + v)%Z) zs x)).
Proof. intros Hu. induction zs as [|z zs IH]; intros x Hx; [exact Hx|]. cbn [fold_left]. apply IH, wrap_typed, Hu. Qed.
Lemma zero_typed u : u <> F64n -> number_typed u (NZ 0).
Proof. destruct u; cbn; intros H; [lia..|contradiction]. Qed.
(** What a point may hold. *)
Definition expo_ok {T} (h : @ExpoModel.expo T) : Prop :=
  (ExpoModel.x_count h < 2 ^ 64)%N /\ (ExpoModel.x_zero h < 2 ^ 64)%N /\ (-10 <= ExpoModel.x_scale h <= 20)%Z /\ in_i32 (ExpoModel.x_pos h) /\ in_i32 (ExpoModel.x_neg h) /\
  Forall (fun n => (n < 2 ^ 64)%N) (ExpoModel.eb_counts (ExpoModel.x_pos h)) /\ Forall (fun n => (n < 2 ^ 64)%N) (ExpoModel.eb_counts (ExpoModel.x_neg h)).
Definition state_ok (u : num) (im : impl) (a : agg_state) : Prop :=
  match im with
  | IHist _ _ _ =>
    match u with
    | F64n => exists bs mm rs b, a = AHF bs mm rs b /\ (b_count b < 2 ^ 64)%N /\ Forall (fun n => (n < 2 ^ 64)%N) (b_counts b)
    | _ => exists bs mm rs b, a = AHZ bs mm rs b /\ (b_count b < 2 ^ 64)%N /\ Forall (fun n => (n < 2 ^ 64)%N) (b_counts b)
    end
  | ILast _ | ISum _ | IPre _ => match u with F64n => exists f, a = AF f | _ => exists z, a = AZ z /\ number_typed u (NZ z) end
  | IExpo _ _ _ _ =>
    match u with
    | F64n => exists mm rs h, a = AEF mm rs (Some h) /\ expo_ok h
    | _ => exists mm rs h, a = AEZ mm rs (Some h) /\ expo_ok h
    end
  end.
Lemma sub_typed {Vl} (c : @config (kv Vl)) a b : precomputed c = true -> state_ok (k_num (c_key c)) (c_impl c) a -> state_ok (k_num (c_key c)) (c_impl c) (w_sub (k_num (c_key c)) a b).
Proof.
  unfold precomputed. destruct (c_impl c); try discriminate. intros _. cbn [state_ok]. destruct (k_num (c_key c)).
  1,2: intros (z & -> & Hz); destruct b; cbn [w_sub]; eexists; (split; [reflexivity|]); try exact Hz; apply wrap_typed; discriminate.
  intros (f & ->). destruct b; cbn [w_sub]; eauto.
Qed.
Section agg.
Context (pp : (f64 -> bool) -> list f64 -> nat) (fsort : list f64 -> list f64) (fmin fmax : f64) (ln : f64 -> f64).
Notation upd := (w_update pp ln).
Notation new := (w_create fsort fmin fmax).
Lemma sum_z u mono zs : forall x, fold_left (upd u (ISum mono)) (map NZ zs) (AZ x) = AZ (fold_left (fun a v => wrap u (a + v)%Z) zs x).
Proof. induction zs as [|z zs IH]; intros x; [reflexivity|]. cbn [map fold_left w_update]. apply IH. Qed.
Lemma sum_f u mono fs : forall x, fold_left (upd u (ISum mono)) (map NF fs) (AF x) = AF (fold_left f64_add fs x).
Proof. induction fs as [|z zs IH]; intros x; [reflexivity|]. cbn [map fold_left w_update]. apply IH. Qed.
Lemma last_cons {X} (l : list X) : forall x y, last (x :: l) y = last l x.
Proof. induction l as [|z l IH]; intros x y; [reflexivity|]. change (last (x :: z :: l) y) with (last (z :: l) y). rewrite IH. destruct l; [reflexivity|]. rewrite IH. reflexivity. Qed.
Lemma last_z u d zs : forall x, fold_left (upd u (ILast d)) (map NZ zs) (AZ x) = AZ (last zs x).
Proof. induction zs as [|z zs IH]; intros x; [reflexivity|]. rewrite last_cons. cbn [map fold_left w_update]. apply IH. Qed.
Lemma last_f u d zs : forall x, fold_left (upd u (ILast d)) (map NF zs) (AF x) = AF (last zs x).
Proof. induction zs as [|z zs IH]; intros x; [reflexivity|]. rewrite last_cons. cbn [map fold_left w_update]. apply IH. Qed.
Lemma pre_z u d zs : forall x, fold_left (upd u (IPre d)) (map NZ zs) (AZ x) = AZ (last zs x).
Proof. induction zs as [|z zs IH]; intros x; [reflexivity|]. rewrite last_cons. cbn [map fold_left w_update]. apply IH. Qed.
Lemma pre_f u d zs : forall x, fold_left (upd u (IPre d)) (map NF zs) (AF x) = AF (last zs x).
Proof. induction zs as [|z zs IH]; intros x; [reflexivity|]. rewrite last_cons. cbn [map fold_left w_update]. apply IH. Qed.
Lemma hist_z u im bounds mm rs zs : forall b, fold_left (upd u im) (map NZ zs) (AHZ bounds mm rs b) =
  AHZ bounds mm rs (fold_left (h_update (fun x y => wrap u (x + y)%Z) Z.ltb f64_of_Z pp bounds) zs b).
Proof. induction zs as [|z zs IH]; intros x; [reflexivity|]. cbn [map fold_left w_update]. apply IH. Qed.
Lemma hist_f u im bounds mm rs zs : forall b, fold_left (upd u im) (map NF zs) (AHF bounds mm rs b) =
  AHF bounds mm rs (fold_left (h_update f64_add f64_ltb (fun f => f) pp bounds) zs b).
Proof. induction zs as [|z zs IH]; intros x; [reflexivity|]. cbn [map fold_left w_update]. apply IH. Qed.

Lemma hist_counts {T} plus lt (zero tmin tmax : T) into bounds vs : partition_point_ok pp -> (N.of_nat (length vs) < 2 ^ 64)%N ->
  let b := fold_left (h_update plus lt into pp bounds) vs (h_create zero tmin tmax bounds) in (b_count b < 2 ^ 64)%N /\ Forall (fun n => (n < 2 ^ 64)%N) (b_counts b).
Proof.
  intros Hpp Hn b. destruct (C47_counts T plus lt zero tmin tmax into pp bounds vs Hpp) as (_ & _ & H1 & H2 & _). fold b in H1, H2. rewrite H1. split; [exact Hn|].
  rewrite H1 in H2. clear H1. assert (G : forall l m, (nsum l <= m)%N -> (m < 2 ^ 64)%N -> Forall (fun n => (n < 2 ^ 64)%N) l).
  { induction l as [|x l IH]; intros m H1 H3; [constructor|]. unfold nsum in H1. cbn [fold_right] in H1. fold (nsum l) in H1. constructor; [lia|]. apply (IH m); lia. }
  apply (G _ (N.of_nat (length vs))); [rewrite H2; lia|exact Hn].
Qed.
Lemma sums_small l n : fold_right N.add 0%N l = N.of_nat n -> (N.of_nat n < 2 ^ 64)%N -> Forall (fun n => (n < 2 ^ 64)%N) l.
Proof.
  intros H Hn. rewrite <- H in Hn. clear H n. induction l as [|x l IH]; [constructor|]. cbn [fold_right] in Hn. constructor; [lia|]. apply IH. lia.
Qed.
Lemma filter_le {X} (f : X -> bool) l : length (filter f l) <= length l.
Proof. induction l as [|x l IH]; [auto|]. cbn [filter]. destruct (f x); cbn [length]; lia. Qed.
Lemma expo_typed {T} plus lt (zero tmin tmax : T) into (inj : T -> number) size scale mm rs vs :
  (forall v, as_float (inj v) = into v) -> config_fits ln (IExpo size scale mm rs) -> (forall v, In v vs -> f64_is_finite (into v) = true) ->
  Forall (value_fits (IExpo size scale mm rs)) (map inj vs) -> (N.of_nat (length vs) < 2 ^ 64)%N ->
  exists h, ExpoModel.x_run ln plus lt zero into (ExpoModel.x_new zero tmin tmax (ExpoModel.i32 (Z.of_N size)) scale) vs = Some h /\ expo_ok h.
Proof.
  intros Hi (Hs & Hc & Hln) Hf Hv Hn. assert (E : ExpoModel.i32 (Z.of_N size) = Z.of_N size) by (apply ExpoProofs.i32_id; lia). rewrite E.
  destruct (expo_run ln plus lt zero tmin tmax into (Z.of_N size) scale vs Hln Hc ltac:(lia) Hf) as (h & R & Rs & _ & _ & Rc & Rz & Sp & Sn & Ip & In_).
  { intros Es v Hin. rewrite Forall_map, Forall_forall in Hv. specialize (Hv v Hin Es). unfold is_zero, magnitude in Hv. rewrite Hi in Hv. exact Hv. }
  exists h. split; [exact R|]. split; [rewrite Rc; exact Hn|]. split. { rewrite Rz. unfold ExpoProps.zeros. pose proof (filter_le (ExpoProps.is_zero into) vs). lia. }
  split; [lia|]. split; [exact Ip|]. split; [exact In_|]. split.
  - eapply sums_small; [exact Sp|]. unfold ExpoProps.positives. pose proof (filter_le (fun v => negb (ExpoProps.is_zero into v) && negb (lt v zero)) vs). lia.
  - eapply sums_small; [exact Sn|]. unfold ExpoProps.negatives. pose proof (filter_le (fun v => negb (ExpoProps.is_zero into v) && lt v zero) vs). lia.
Qed.
Lemma aggregated u im l : partition_point_ok pp -> Forall (number_typed u) l -> (N.of_nat (length l) < 2 ^ 64)%N ->
  config_fits ln im -> Forall (value_fits im) l -> Forall (fun v => w_accepts im v = true) l ->
  state_ok u im (fold_left (upd u im) l (new u im)).
Proof.
  intros Hpp Ht Hl Hc Hv Ha. destruct u.
  1,2: match goal with |- state_ok ?u _ _ => assert (Hu : u <> F64n) by discriminate end; destruct (ints_all _ l Hu Ht) as [E El]; rewrite E.
  3: destruct (floats_all l Ht) as [E El]; rewrite E.
  all: rewrite E in Ht, Hv, Ha; destruct im as [d|mono|mono|bs mm rs|sz sc mm rs]; cbn [state_ok w_create].
  - rewrite last_z. eexists. split; [reflexivity|]. clear - Ht. induction (ints l) as [|z zs IH]; [cbn; lia|]. inversion Ht as [|? ? H1 H2]; subst. destruct zs; [exact H1|apply IH, H2].
  - rewrite sum_z. eexists. split; [reflexivity|]. apply sum_typed; [discriminate|]. cbn; lia.
  - rewrite pre_z. eexists. split; [reflexivity|]. clear - Ht. induction (ints l) as [|z zs IH]; [cbn; lia|]. inversion Ht as [|? ? H1 H2]; subst. destruct zs; [exact H1|apply IH, H2].
  - rewrite hist_z. do 4 eexists. split; [reflexivity|]. apply hist_counts; [exact Hpp|rewrite El; exact Hl].
  - rewrite expo_z by (apply (ints_finite U64); [discriminate|exact Ht]). destruct (expo_typed (fun x y => wrap U64 (x + y)%Z) Z.ltb 0%Z (z_min U64) (z_max U64) f64_of_Z NZ sz sc mm rs (ints l)) as (h & R & Ok);
      [reflexivity|exact Hc|apply (ints_finite U64); [discriminate|exact Ht]|exact Hv|rewrite El; exact Hl|]. rewrite R. eauto.
  - rewrite last_z. eexists. split; [reflexivity|]. clear - Ht. induction (ints l) as [|z zs IH]; [cbn; lia|]. inversion Ht as [|? ? H1 H2]; subst. destruct zs; [exact H1|apply IH, H2].
  - rewrite sum_z. eexists. split; [reflexivity|]. apply sum_typed; [discriminate|]. cbn; lia.
  - rewrite pre_z. eexists. split; [reflexivity|]. clear - Ht. induction (ints l) as [|z zs IH]; [cbn; lia|]. inversion Ht as [|? ? H1 H2]; subst. destruct zs; [exact H1|apply IH, H2].
  - rewrite hist_z. do 4 eexists. split; [reflexivity|]. apply hist_counts; [exact Hpp|rewrite El; exact Hl].
  - rewrite expo_z by (apply (ints_finite I64); [discriminate|exact Ht]). destruct (expo_typed (fun x y => wrap I64 (x + y)%Z) Z.ltb 0%Z (z_min I64) (z_max I64) f64_of_Z NZ sz sc mm rs (ints l)) as (h & R & Ok);
      [reflexivity|exact Hc|apply (ints_finite I64); [discriminate|exact Ht]|exact Hv|rewrite El; exact Hl|]. rewrite R. eauto.
  - rewrite last_f. eexists. reflexivity.
  - rewrite sum_f. eexists. reflexivity.
  - rewrite pre_f. eexists. reflexivity.
  - rewrite hist_f. do 4 eexists. split; [reflexivity|]. apply hist_counts; [exact Hpp|rewrite El; exact Hl].
  - rewrite expo_f by (eapply floats_finite, Ha). destruct (expo_typed f64_add f64_ltb (f64_of_Z 0) fmin fmax (fun f => f) NF sz sc mm rs (floats l)) as (h & R & Ok);
      [reflexivity|exact Hc|eapply floats_finite, Ha|exact Hv|rewrite El; exact Hl|]. rewrite R. eauto.
Qed.

(** ** Points made of typed measurements are typed *)
Context {Vl : Type} (val : Vl -> KvModel.value).
Lemma points_typed keq set same (keptf : list (kv Vl) -> list (kv Vl)) overflow u im limit (w : list (list (kv Vl) * number)) pts :
  partition_point_ok pp -> (forall k, incl (set k) k) -> (forall k, incl (keptf k) k) -> attrs_typed val overflow ->
  (forall x, In x w -> attrs_typed val (fst x) /\ number_typed u (snd x)) -> (N.of_nat (length w) < 2 ^ 64)%N ->
  config_fits ln im -> (forall x, In x w -> value_fits im (snd x) /\ w_accepts im (snd x) = true) ->
  accounted keq set same keptf overflow (new u im) (upd u im) limit w pts ->
  Forall (fun p => attrs_typed val (fst p) /\ state_ok u im (snd p)) pts.
Proof.
  intros Hpp Hset Hkept Ho Hw Hn Hcf Hvf (bk & Ew & Hb & _ & Hp & _). apply Forall_forall. intros p Pin. destruct (Hp p Pin) as ((x & X1 & X2) & E).
  assert (Hx : In x w) by (rewrite <- Ew; apply (in_map snd) in X1; exact X1).
  assert (Sub : forall a b : list (kv Vl), incl a b -> attrs_typed val b -> attrs_typed val a).
  { intros a b Hi Hb'. unfold attrs_typed in *. rewrite Forall_forall in *. auto. }
  split.
  - destruct X2 as [X2|X2].
    + rewrite X2. destruct (Hb _ _ X1) as [E'|[E' _]]; rewrite E'; [|exact Ho]. eapply Sub; [apply Hset|apply Hw, Hx].
    + rewrite X2. eapply Sub; [apply Hkept|apply Hw, Hx].
  - rewrite E. apply aggregated; [exact Hpp|..|exact Hcf| |].
    + apply Forall_forall. intros v Hv. apply in_map_iff in Hv. destruct Hv as (b & <- & Hb'). apply filter_In in Hb'. apply Hw. rewrite <- Ew. apply in_map, Hb'.
    + rewrite map_length. assert (L : length (filter (fun b => if keq (fst b) (same (fst p)) then true else false) bk) <= length w).
      { rewrite <- Ew, map_length. clear. induction bk as [|b bk IH]; [auto|]. cbn [filter]. destruct (keq (fst b) (same (fst p))); cbn [length]; lia. }
      lia.
    + apply Forall_forall. intros v Hv. apply in_map_iff in Hv. destruct Hv as (b & <- & Hb'). apply filter_In in Hb'. apply Hvf. rewrite <- Ew. apply in_map, Hb'.
    + apply Forall_forall. intros v Hv. apply in_map_iff in Hv. destruct Hv as (b & <- & Hb'). apply filter_In in Hb'. apply Hvf. rewrite <- Ew. apply in_map, Hb'.
Qed.
End agg.

(** * What the points show *)
Lemma of_Z_not_nan z : f64_is_nan (f64_of_Z z) = false.
Proof. unfold f64_is_nan, f64_of_Z, Binary.binary_normalize. apply Binary.is_nan_BSN2B'. Qed.
Lemma flat_points {X Y Z} (f : X * Y -> list Z) {W} (g : Z -> W) (P : X -> W -> Prop) pts :
  (forall p, In p pts -> exists x, f p = [x] /\ P (fst p) (g x)) -> Forall2 P (map fst pts) (map g (flat_map f pts)).
Proof.
  induction pts as [|p pts IH]; intros H; [constructor|]. cbn [map flat_map]. destruct (H p (or_introl eq_refl)) as (x & E & Hx). rewrite E.
  constructor; [exact Hx|]. apply IH. intros q Hq. apply H. right. exact Hq.
Qed.
Section shows.
Context (pp : (f64 -> bool) -> list f64 -> nat) (fsort : list f64 -> list f64) (Hpp : partition_point_ok pp) (Hfs : f64_sort_ok fsort).
Lemma bounds_of given : let bounds := fsort (retained given) in
  (forall b, In b bounds <-> In b given /\ f64_is_nan b = false) /\ no_nan bounds /\ sorted bounds.
Proof using Hfs.
  intros bounds. destruct (Hfs (retained given)) as [P S].
  { apply forallb_forall. intros x Hx. apply filter_In in Hx. apply Hx. }
  assert (E : forall b, In b bounds <-> In b given /\ f64_is_nan b = false).
  { intros b. transitivity (In b (retained given)).
    - split; apply Permutation_in; [exact P|symmetry; exact P].
    - unfold retained. rewrite filter_In, negb_true_iff. reflexivity. }
  split; [exact E|]. split; [|exact S]. intros x Hx. apply E, Hx.
Qed.
Lemma bucket_in {T} (into : T -> f64) bounds v i : no_nan bounds -> sorted bounds -> f64_is_nan (into v) = false -> i <= length bounds ->
  (bucket_index into pp bounds v =? i) = in_bucket bounds i (into v).
Proof using Hpp.
  intros Hn Hs Hv Hi. apply eq_true_iff_eq. rewrite Nat.eqb_eq. rewrite (C47_bucket T into pp bounds v i Hpp Hn Hs Hv Hi). unfold in_bucket. rewrite andb_true_iff. split.
  - intros [H1 H2]. split.
    + destruct i as [|j]; [reflexivity|]. replace (S j - 1) with j in H1 by lia. destruct (nth_error bounds j) as [b|] eqn:E; [apply H1; [reflexivity|lia]|].
      apply nth_error_None in E. lia.
    + destruct (nth_error bounds i) as [b|]; [apply H2; reflexivity|reflexivity].
  - intros [H1 H2]. split.
    + intros b E Hp. destruct i as [|j]; [lia|]. replace (S j - 1) with j in E by lia. rewrite E in H1. exact H1.
    + intros b E. rewrite E in H2. exact H2.
Qed.
Lemma buckets_in {T} plus lt (zero tmin tmax : T) into bounds vs (inj : T -> number) : no_nan bounds -> sorted bounds -> (forall v, as_float (inj v) = into v) ->
  let b := fold_left (h_update plus lt into pp bounds) vs (h_create zero tmin tmax bounds) in
  (forall v, In v (map inj vs) -> f64_is_nan (as_float v) = false) -> forall i n, nth_error (b_counts b) i = Some n ->
  n = N.of_nat (length (filter (fun v => in_bucket bounds i (as_float v)) (map inj vs))).
Proof using Hpp.
  intros Hn Hs Hi b Hv i n E. destruct (C47_counts T plus lt zero tmin tmax into pp bounds vs Hpp) as (C1 & C2 & _). fold b in C1, C2.
  assert (L : i < length bounds + 1) by (rewrite <- C1; apply nth_error_Some; congruence). rewrite (C2 i L) in E. injection E as <-. unfold counted. f_equal.
  clear C1 C2 b. induction vs as [|v vs IH]; [reflexivity|]. cbn [map filter]. rewrite Hi.
  rewrite (bucket_in into bounds v i Hn Hs) by (try lia; rewrite <- Hi; apply Hv; left; reflexivity).
  destruct (in_bucket bounds i (into v)); cbn [length]; rewrite IH; auto; intros w Hw; apply Hv; right; exact Hw.
Qed.
Lemma sum_wraps u zs : u <> F64n -> fold_left (fun a v => wrap u (a + v)%Z) zs 0%Z = wrap u (zsum zs).
Proof. intros H. destruct u; [exact (proj1 (C42_integer_sums zs))|exact (proj2 (C42_integer_sums zs))|contradiction]. Qed.
Lemma wrap_in_range u z : u <> F64n -> number_typed u (NZ z) -> wrap u z = z.
Proof.
  intros H Hz. destruct u; [..|contradiction]; cbn [wrap number_typed] in *; [apply Z.mod_small, Hz|].
  rewrite Z.mod_small; [ring|]. change (2 ^ 64)%Z with (2 ^ 63 + 2 ^ 63)%Z. lia.
Qed.
Lemma ints_map zs : ints (map NZ zs) = zs.
Proof. induction zs as [|z zs IH]; [reflexivity|]. cbn. f_equal. exact IH. Qed.
Lemma floats_map zs : floats (map NF zs) = zs.
Proof. induction zs as [|z zs IH]; [reflexivity|]. cbn. f_equal. exact IH. Qed.
Lemma z_extremes u plus zero into bounds zs : u <> F64n -> Forall (number_typed u) (map NZ zs) -> zs <> [] ->
  let b := fold_left (h_update plus Z.ltb into pp bounds) zs (h_create zero (z_min u) (z_max u) bounds) in
  extremes u (map NZ zs) (f64_of_Z (b_min b)) (f64_of_Z (b_max b)).
Proof.
  intros Hu Ht Hz b. set (good := fun z => (z_min u <= z <= z_max u)%Z).
  destruct (C47_min_max Z plus Z.ltb zero (z_min u) (z_max u) into pp bounds good IZR zs) as (H1 & H2 & H3 & H4).
  - intros x y _ _. rewrite Z.ltb_lt. split; [apply IZR_lt|apply lt_IZR].
  - unfold good. destruct u; cbn; lia.
  - unfold good. destruct u; cbn; lia.
  - intros x [Hx1 Hx2]. split; apply IZR_le; assumption.
  - intros v Hv. rewrite Forall_map, Forall_forall in Ht. specialize (Ht v Hv). unfold good. destruct u; cbn in *; [lia..|contradiction].
  - exact Hz.
  - fold b in H1, H2, H3, H4. destruct H1 as (x & X1 & X2), H3 as (y & Y1 & Y2). apply eq_IZR in X2, Y2.
    assert (G : exists x y, In x (ints (map NZ zs)) /\ In y (ints (map NZ zs)) /\ f64_of_Z (b_min b) = f64_of_Z x /\ f64_of_Z (b_max b) = f64_of_Z y /\
      forall z, In z (ints (map NZ zs)) -> (x <= z <= y)%Z).
    { rewrite ints_map. exists x, y. rewrite X2, Y2. do 4 (split; [auto|]). intros z Hin. rewrite <- X2, <- Y2. split; apply le_IZR; auto. }
    destruct u; [exact G|exact G|contradiction].
Qed.
Lemma f_extremes plus zero into bounds fs : fs <> [] ->
  let b := fold_left (h_update plus f64_ltb into pp bounds) fs (h_create zero f64_MIN f64_MAX bounds) in
  extremes F64n (map NF fs) (b_min b) (b_max b).
Proof.
  intros Hz b Hf. rewrite floats_map in *.
  destruct (C47_min_max f64 plus f64_ltb zero f64_MIN f64_MAX into pp bounds (fun f => f64_is_finite f = true) f64R fs) as (H1 & H2 & H3 & H4).
  - intros x y Hx Hy. apply (proj2 C47_number_types x y Hx Hy).
  - apply f64_MIN_val.
  - apply f64_MAX_val.
  - intros x Hx. apply (proj2 C47_number_types x x Hx Hx).
  - exact Hf.
  - exact Hz.
  - fold b in H1, H2, H3, H4. split; [exact H1|]. split; [exact H3|]. intros f Hin. split; auto.
Qed.

Context {Vl : Type} (val : Vl -> KvModel.value).
Notation new := (w_create fsort f64_MIN f64_MAX).
Notation attrs := (list (kv Vl)).
Lemma hist_shown {T} u plus lt (zero tmin tmax : T) into (num : T -> OtlpModel.pnum) given mm rs vs inj s t (a : attrs) :
  (forall v, as_float (inj v) = into v) ->
  let bounds := fsort (retained given) in
  let b := fold_left (h_update plus lt into pp bounds) vs (h_create zero tmin tmax bounds) in
  (rs = true -> number_typed u (total u (map inj vs)) -> into (b_total b) = as_float (total u (map inj vs))) ->
  extremes u (map inj vs) (into (b_min b)) (into (b_max b)) ->
  shows_hist val u s t given mm rs (map inj vs) a (OtlpModel.hpoint_msg num into s t (hist_point zero (map (w_attr val) a) bounds mm rs b)).
Proof using Hpp Hfs.
  intros Hi bounds b Ht He. destruct (bounds_of given) as (B1 & B2 & B3). fold bounds in B1, B2, B3.
  destruct (C47_counts T plus lt zero tmin tmax into pp bounds vs Hpp) as (C1 & _ & C3 & _). fold b in C1, C3.
  unfold shows_hist, OtlpModel.hpoint_msg, hist_point, h_point. cbn [OtlpModel.ph_attrs OtlpModel.ph_start OtlpModel.ph_time OtlpModel.ph_count OtlpModel.ph_sum OtlpModel.ph_bounds OtlpModel.ph_buckets OtlpModel.ph_min OtlpModel.ph_max
    OtlpModel.h_attrs OtlpModel.h_count OtlpModel.h_bounds OtlpModel.h_buckets OtlpModel.h_min OtlpModel.h_max OtlpModel.h_sum hp_count hp_bounds hp_counts hp_sum hp_min hp_max].
  do 3 (split; [reflexivity|]). split; [rewrite map_length; exact C3|]. split; [intros ->; apply Ht; reflexivity|]. split; [exact B1|]. split; [exact C1|].
  split; [apply buckets_in; assumption|]. split; [intros ->; split; reflexivity|]. intros ->. eexists _, _. do 2 (split; [reflexivity|]). exact He.
Qed.
Context (ln : f64 -> f64).
Notation upd := (w_update pp ln).
(** The data of a metric made of points that aggregate the lists [l]. *)
Lemma metric_reads c t start time (pts : list (attrs * agg_state)) (l l' : attrs -> list number) p :
  let u := k_num (c_key c) in
  config_fits ln (c_impl c) -> differences p c = false ->
  t = (if per_collection p c then Delta else Cumulative) ->
  (forall q, In q pts -> snd q = fold_left (upd u (c_impl c)) (l (fst q)) (new u (c_impl c))) ->
  (forall q, In q pts -> Forall (number_typed u) (l (fst q)) /\ l (fst q) <> []) ->
  (forall q, In q pts -> Forall (value_fits (c_impl c)) (l (fst q)) /\ Forall (fun v => w_accepts (c_impl c) v = true) (l (fst q))) ->
  reads val u start time ln (c_impl c) t (map fst pts) l l'
    (OtlpModel.pm_data (OtlpModel.metric_msg (w_metric val (metric_of p start time c pts)))).
Proof using Hpp Hfs.
  intros u Him Hdf Et Hs Hl Hvf. unfold differences, precomputed in Hdf. unfold metric_of. rewrite <- Et. assert (Tt : OtlpModel.temporality_msg (w_temp t) = match t with Delta => 1%Z | _ => 2%Z end) by (destruct t; reflexivity).
  assert (Zs : u <> F64n -> forall q, In q pts -> exists zs, l (fst q) = map NZ zs /\ zs <> [] /\ Forall (number_typed u) (map NZ zs)).
  { intros Hu q Hq. destruct (Hl q Hq) as [H1 H2]. destruct (ints_all u _ Hu H1) as [E _]. exists (ints (l (fst q))). split; [exact E|]. rewrite <- E. split; [|exact H1].
    intros E'. rewrite E' in E. contradiction. }
  assert (Fs : u = F64n -> forall q, In q pts -> exists fs, l (fst q) = map NF fs /\ fs <> []).
  { intros Hu q Hq. destruct (Hl q Hq) as [H1 H2]. rewrite Hu in H1. destruct (floats_all _ H1) as [E _]. exists (floats (l (fst q))). split; [exact E|]. intros E'. rewrite E' in E. contradiction. }
  unfold OtlpModel.metric_msg, w_metric. cbn [OtlpModel.pm_data m_name m_desc m_unit m_data fst snd OtlpModel.me_data].
  destruct (c_impl c) as [d|mono|mono|given mm rs|size scale mm rs]; fold u; destruct u eqn:Eu; cbn [OtlpModel.amdata_msg w_data OtlpModel.data_msg reads g_points g_start g_time s_points s_start s_time s_temp s_mono ProduceModel.h_points ProduceModel.h_start ProduceModel.h_time ProduceModel.h_temp];
    rewrite ?Tt; repeat (split; [reflexivity|]); unfold z_points, f_points, zh_points, fh_points, ze_points, fe_points; apply flat_points; intros q Hq; rewrite (Hs q Hq); destruct (Hvf q Hq) as [Hv Ha];
    try (destruct (Zs ltac:(discriminate) q Hq) as (zs & E & Hne & Ht); rewrite E in *); try (destruct (Fs eq_refl q Hq) as (fs & E & Hne); rewrite E in *); cbn [w_create].
  1,2: rewrite last_z; eexists; split; [reflexivity|]; exists (map NZ (removelast zs)), (NZ (last zs 0%Z)); split;
    [change [NZ (last zs 0%Z)] with (map NZ [last zs 0%Z]); rewrite <- map_app, <- (app_removelast_last 0%Z Hne); reflexivity|]; intros Hc; unfold shows, OtlpModel.npoint_msg; cbn [OtlpModel.n_attrs OtlpModel.n_ex OtlpModel.n_value map carried] in *;
    unfold OtlpModel.num_of_u64; rewrite ?(proj2 (Z.ltb_lt (last zs 0%Z) (2 ^ 63)%Z) (proj2 Hc)); reflexivity.
  - rewrite last_f. eexists. split; [reflexivity|]. exists (map NF (removelast fs)), (NF (last fs (f64_of_Z 0))). split; [change [NF (last fs (f64_of_Z 0))] with (map NF [last fs (f64_of_Z 0)]); rewrite <- map_app, <- (app_removelast_last (f64_of_Z 0) Hne); reflexivity|]. intros _. reflexivity.
  - rewrite sum_z. eexists. split; [reflexivity|]. intros Hc. unfold total in *. rewrite ints_map in *. unfold shows, OtlpModel.npoint_msg. cbn [OtlpModel.n_attrs OtlpModel.n_ex OtlpModel.n_value map].
    rewrite sum_wraps by discriminate. cbn [carried] in Hc. rewrite wrap_in_range; [|discriminate|cbn [number_typed]; lia]. unfold OtlpModel.num_of_u64. rewrite (proj2 (Z.ltb_lt _ _) (proj2 Hc)). reflexivity.
  - rewrite sum_z. eexists. split; [reflexivity|]. intros Hc. unfold total in *. rewrite ints_map in *. unfold shows, OtlpModel.npoint_msg. cbn [OtlpModel.n_attrs OtlpModel.n_ex OtlpModel.n_value map].
    rewrite sum_wraps by discriminate. rewrite wrap_in_range; [reflexivity|discriminate|exact Hc].
  - rewrite sum_f. eexists. split; [reflexivity|]. intros _. unfold total. rewrite floats_map. reflexivity.
  - cbn [andb] in Hdf. rewrite Hdf in Et. rewrite Et. rewrite pre_z. eexists. split; [reflexivity|]. exists (map NZ (removelast zs)), (NZ (last zs 0%Z)). split;
    [change [NZ (last zs 0%Z)] with (map NZ [last zs 0%Z]); rewrite <- map_app, <- (app_removelast_last 0%Z Hne); reflexivity|]. intros Hc. unfold shows, OtlpModel.npoint_msg. cbn [OtlpModel.n_attrs OtlpModel.n_ex OtlpModel.n_value map carried] in *.
    unfold OtlpModel.num_of_u64. rewrite (proj2 (Z.ltb_lt (last zs 0%Z) (2 ^ 63)%Z) (proj2 Hc)). reflexivity.
  - cbn [andb] in Hdf. rewrite Hdf in Et. rewrite Et. rewrite pre_z. eexists. split; [reflexivity|]. exists (map NZ (removelast zs)), (NZ (last zs 0%Z)). split;
    [change [NZ (last zs 0%Z)] with (map NZ [last zs 0%Z]); rewrite <- map_app, <- (app_removelast_last 0%Z Hne); reflexivity|]. intros Hc. reflexivity.
  - cbn [andb] in Hdf. rewrite Hdf in Et. rewrite Et. rewrite pre_f. eexists. split; [reflexivity|]. exists (map NF (removelast fs)), (NF (last fs (f64_of_Z 0))). split; [change [NF (last fs (f64_of_Z 0))] with (map NF [last fs (f64_of_Z 0)]); rewrite <- map_app, <- (app_removelast_last (f64_of_Z 0) Hne); reflexivity|]. intros _. reflexivity.
  - rewrite hist_z. eexists. split; [reflexivity|]. apply hist_shown; [reflexivity|..|apply z_extremes; [discriminate|exact Ht|exact Hne]].
    intros _ Hr. destruct (C47_counts Z (fun x y => wrap U64 (x + y)%Z) Z.ltb 0%Z (z_min U64) (z_max U64) f64_of_Z pp (fsort (retained given)) zs Hpp) as (_ & _ & _ & _ & C5). rewrite C5.
    unfold total in *. rewrite ints_map in *. rewrite sum_wraps by discriminate. rewrite wrap_in_range by (discriminate || exact Hr). reflexivity.
  - rewrite hist_z. eexists. split; [reflexivity|]. apply hist_shown; [reflexivity|..|apply z_extremes; [discriminate|exact Ht|exact Hne]].
    intros _ Hr. destruct (C47_counts Z (fun x y => wrap I64 (x + y)%Z) Z.ltb 0%Z (z_min I64) (z_max I64) f64_of_Z pp (fsort (retained given)) zs Hpp) as (_ & _ & _ & _ & C5). rewrite C5.
    unfold total in *. rewrite ints_map in *. rewrite sum_wraps by discriminate. rewrite wrap_in_range by (discriminate || exact Hr). reflexivity.
  - rewrite hist_f. eexists. split; [reflexivity|]. apply (hist_shown F64n f64_add f64_ltb (f64_of_Z 0) f64_MIN f64_MAX (fun f => f)); [reflexivity|..|apply f_extremes, Hne].
    intros _ _. destruct (C47_counts f64 f64_add f64_ltb (f64_of_Z 0) f64_MIN f64_MAX (fun f => f) pp (fsort (retained given)) fs Hpp) as (_ & _ & _ & _ & C5). rewrite C5.
    unfold total. rewrite floats_map. reflexivity.
  - assert (Hf : forall z, In z zs -> f64_is_finite (f64_of_Z z) = true) by (apply (ints_finite U64); [discriminate|exact Ht]).
    rewrite expo_z by exact Hf. pose proof Him as (Hsz & Hsc & Hln). assert (Ei : ExpoModel.i32 (Z.of_N size) = Z.of_N size) by (apply ExpoProofs.i32_id; lia). rewrite Ei.
    destruct (expo_run ln (fun x y => wrap U64 (x + y)%Z) Z.ltb 0%Z (z_min U64) (z_max U64) f64_of_Z (Z.of_N size) scale zs Hln Hsc ltac:(lia) Hf) as (h & R & _).
    { intros Es z Hin. rewrite Forall_map, Forall_forall in Hv. exact (Hv z Hin Es). }
    rewrite R. eexists. split; [reflexivity|]. destruct (z_expo ln U64 (Z.of_N size) scale zs h ltac:(discriminate) Ht Hne Hf R) as [Es Ex].
    eapply (expo_shown val ln (fun x y => wrap U64 (x + y)%Z) Z.ltb 0%Z (z_min U64) (z_max U64) f64_of_Z NZ (fun n => match n with NZ z => z | NF _ => 0%Z end)); try reflexivity; try assumption.
    intros _ Hr. rewrite Es. unfold total in *. rewrite ints_map in *. rewrite sum_wraps by discriminate. rewrite wrap_in_range by (discriminate || exact Hr). reflexivity.
  - assert (Hf : forall z, In z zs -> f64_is_finite (f64_of_Z z) = true) by (apply (ints_finite I64); [discriminate|exact Ht]).
    rewrite expo_z by exact Hf. pose proof Him as (Hsz & Hsc & Hln). assert (Ei : ExpoModel.i32 (Z.of_N size) = Z.of_N size) by (apply ExpoProofs.i32_id; lia). rewrite Ei.
    destruct (expo_run ln (fun x y => wrap I64 (x + y)%Z) Z.ltb 0%Z (z_min I64) (z_max I64) f64_of_Z (Z.of_N size) scale zs Hln Hsc ltac:(lia) Hf) as (h & R & _).
    { intros Es z Hin. rewrite Forall_map, Forall_forall in Hv. exact (Hv z Hin Es). }
    rewrite R. eexists. split; [reflexivity|]. destruct (z_expo ln I64 (Z.of_N size) scale zs h ltac:(discriminate) Ht Hne Hf R) as [Es Ex].
    eapply (expo_shown val ln (fun x y => wrap I64 (x + y)%Z) Z.ltb 0%Z (z_min I64) (z_max I64) f64_of_Z NZ (fun n => match n with NZ z => z | NF _ => 0%Z end)); try reflexivity; try assumption.
    intros _ Hr. rewrite Es. unfold total in *. rewrite ints_map in *. rewrite sum_wraps by discriminate. rewrite wrap_in_range by (discriminate || exact Hr). reflexivity.
  - assert (Hf : forall f, In f fs -> f64_is_finite f = true) by (eapply floats_finite, Ha).
    rewrite expo_f by exact Hf. pose proof Him as (Hsz & Hsc & Hln). assert (Ei : ExpoModel.i32 (Z.of_N size) = Z.of_N size) by (apply ExpoProofs.i32_id; lia). rewrite Ei.
    destruct (expo_run ln f64_add f64_ltb (f64_of_Z 0) f64_MIN f64_MAX (fun f => f) (Z.of_N size) scale fs Hln Hsc ltac:(lia) Hf) as (h & R & _).
    { intros Es z Hin. rewrite Forall_map, Forall_forall in Hv. exact (Hv z Hin Es). }
    rewrite R. eexists. split; [reflexivity|]. destruct (f_expo ln (Z.of_N size) scale fs h Hne Hf R) as [Es Ex].
    eapply (expo_shown val ln f64_add f64_ltb (f64_of_Z 0) f64_MIN f64_MAX (fun f => f) NF (fun n => match n with NF f => f | NZ _ => f64_of_Z 0 end)); try reflexivity; try assumption.
    intros _ _. rewrite Es. unfold total. rewrite floats_map. reflexivity.
Qed.
(** The same for observable sums with delta temporality. *)
Lemma latest_z u zs : u <> F64n -> latest u (map NZ zs) = NZ (last zs 0%Z).
Proof. intros H. unfold latest. destruct u; [..|contradiction]; (induction zs as [|z zs IH]; [reflexivity|]; destruct zs; [reflexivity|exact IH]). Qed.
Lemma latest_f fs : latest F64n (map NF fs) = NF (last fs (f64_of_Z 0)).
Proof. unfold latest. induction fs as [|z zs IH]; [reflexivity|]. destruct zs; [reflexivity|exact IH]. Qed.
Lemma change_reads c t start time (pts : list (attrs * agg_state)) (l l' : attrs -> list number) p :
  let u := k_num (c_key c) in differences p c = true ->
  t = (if per_collection p c then Delta else Cumulative) ->
  (forall q, In q pts -> snd q = w_sub u (fold_left (upd u (c_impl c)) (l (fst q)) (new u (c_impl c))) (fold_left (upd u (c_impl c)) (l' (fst q)) (new u (c_impl c)))) ->
  (forall q, In q pts -> Forall (number_typed u) (l (fst q)) /\ l (fst q) <> [] /\ Forall (number_typed u) (l' (fst q))) ->
  reads val u start time ln (c_impl c) t (map fst pts) l l'
    (OtlpModel.pm_data (OtlpModel.metric_msg (w_metric val (metric_of p start time c pts)))).
Proof.
  intros u Hdf Et Hs Hl. apply andb_true_iff in Hdf. destruct Hdf as [Hp Hd]. unfold metric_of. rewrite Hd in *. subst t.
  unfold precomputed in Hp. destruct (c_impl c) as [| |mono| |]; try discriminate Hp. fold u.
  unfold OtlpModel.metric_msg, w_metric. cbn [OtlpModel.pm_data m_name m_desc m_unit m_data fst snd OtlpModel.me_data].
  destruct u eqn:Eu; cbn [OtlpModel.amdata_msg w_data OtlpModel.data_msg reads s_points s_start s_time s_temp s_mono]; (split; [reflexivity|]); (split; [reflexivity|]);
    unfold z_points, f_points; apply flat_points; intros q Hq; rewrite (Hs q Hq); destruct (Hl q Hq) as (T1 & Hne & T2); unfold shows_change; cbn [w_create].
  3: { destruct (floats_all _ T1) as [E1 _], (floats_all _ T2) as [E2 _]. rewrite E1, E2, !pre_f. eexists. split; [reflexivity|]. split; [rewrite <- E1; exact Hne|]. intros _.
    rewrite !latest_f. reflexivity. }
  all: match goal with |- context [w_sub ?u] => assert (Hu : u <> F64n) by discriminate end; destruct (ints_all _ _ Hu T1) as [E1 _], (ints_all _ _ Hu T2) as [E2 _]; rewrite E1, E2, !pre_z;
    eexists; (split; [reflexivity|]); (split; [rewrite <- E1; exact Hne|]); rewrite !latest_z by exact Hu; cbn [minus]; intros Hc; unfold shows, OtlpModel.npoint_msg; cbn [OtlpModel.n_attrs OtlpModel.n_ex OtlpModel.n_value map];
    cbn [carried] in Hc; rewrite wrap_in_range; [|exact Hu|cbn [number_typed]; lia]; try reflexivity.
  unfold OtlpModel.num_of_u64. rewrite (proj2 (Z.ltb_lt _ _) (proj2 Hc)). reflexivity.
Qed.
End shows.

(** * The request is one a receiver can read *)
Section request.
Context {Vl : Type} (val : Vl -> KvModel.value) (sc_dec : forall x y : InstrModel.scope (kv Vl), {x = y} + {x <> y}).
Notation attrs := (list (kv Vl)).
Lemma Forall_flat {X Y} (P : Y -> Prop) (f : X -> list Y) l : (forall x, In x l -> Forall P (f x)) -> Forall P (flat_map f l).
Proof. intros H. apply Forall_forall. intros y Hy. apply in_flat_map in Hy. destruct Hy as (x & Hx & Hy). specialize (H x Hx). rewrite Forall_forall in H. auto. Qed.
Lemma metric_typed c p start time (pts : list (attrs * agg_state)) : stream_typed val c ->
  Forall (fun q => attrs_typed val (fst q) /\ state_ok (k_num (c_key c)) (c_impl c) (snd q)) pts ->
  ProtoProps.typed_metric (w_metric val (metric_of p start time c pts)).
Proof.
  intros (H1 & H2 & H3 & _) Hp. unfold w_metric, metric_of. cbn [m_name m_desc m_unit m_data fst snd].
  split; [exact H1|]. split; [exact H2|]. split; [exact H3|]. cbn [OtlpModel.me_data]. rewrite Forall_forall in Hp.
  assert (A : forall q, In q pts -> Forall ProtoProps.typed_attr (map (w_attr val) (fst q))).
  { intros q Hq. apply Forall_map. exact (proj1 (Hp q Hq)). }
  destruct (c_impl c) as [d|mono|mono|given mm rs|? ? ? ?]; destruct (k_num (c_key c)); cbn [w_data ProtoProps.typed_mdata g_points s_points ProduceModel.h_points];
    apply Forall_flat; intros q Hq; specialize (A q Hq); destruct (Hp q Hq) as [_ S]; cbn [state_ok] in S.
  1,2,4,5,7,8: destruct S as (z & -> & Hz); repeat constructor; try exact A; apply Hz.
  1,2,3: destruct S as (z & ->); repeat constructor; exact A.
  1,2,3: destruct S as (bs & m' & r' & b & -> & Hc & Hb); constructor; [|constructor]; split; [exact A|]; split; [exact Hc|]; split; [exact Hb|constructor].
  all: destruct S as (m' & r' & h & -> & Hc & Hz & Hs & Ip & In_ & Fp & Fn); constructor; [|constructor]; split; [exact A|]; split; [exact Hc|]; split; [unfold ProtoSpec.i32; cbn [OtlpModel.e_scale expo_point]; lia|];
    split; [exact Hz|]; split; [split; [exact Ip|exact Fp]|]; split; [split; [exact In_|exact Fn]|]; split; [reflexivity|constructor].
Qed.
Lemma report_typed p start time pts cs scs : (forall sc, In sc scs -> In sc (map scope_of cs)) -> (forall c, In c cs -> stream_typed val c) ->
  (forall c, In c cs -> Forall (fun q => attrs_typed val (fst q) /\ state_ok (k_num (c_key c)) (c_impl c) (snd q)) (pts c)) ->
  Forall (fun sm => ProtoProps.typed_scope (fst sm) /\ Forall ProtoProps.typed_metric (snd sm))
    (map (fun sm => (w_scope val (sm_scope sm), map (w_metric val) (sm_metrics sm))) (report sc_dec p start time pts cs scs)).
Proof.
  intros Hsc Hst Hp. apply Forall_map. unfold report. apply Forall_flat. intros sc Hin.
  assert (M : Forall (fun m => ProtoProps.typed_metric (w_metric val m)) (scope_report sc_dec p start time pts cs sc)).
  { unfold scope_report. apply Forall_flat. intros c Hc. destruct (sc_dec (scope_of c) sc); [|constructor]. specialize (Hp c Hc). destruct (pts c) eqn:E; [constructor|].
    constructor; [|constructor]. apply metric_typed; [apply Hst, Hc|exact Hp]. }
  destruct (scope_report sc_dec p start time pts cs sc) as [|m ms]; [constructor|]. constructor; [|constructor]. cbn [sm_scope sm_metrics fst snd]. split.
  - apply Hsc, in_map_iff in Hin. destruct Hin as (c & <- & Hc). apply (Hst c Hc).
  - apply Forall_map. exact M.
Qed.
Lemma in_report p (start time : config -> Z) (pts : config -> list (attrs * agg_state)) cs scs c : In c cs -> In (scope_of c) scs -> pts c <> [] ->
  exists sm, In sm (report sc_dec p start time pts cs scs) /\ sm_scope sm = scope_of c /\ In (metric_of p (start c) (time c) c (pts c)) (sm_metrics sm).
Proof.
  intros Hc Hs Hp. assert (H : In (metric_of p (start c) (time c) c (pts c)) (scope_report sc_dec p start time pts cs (scope_of c))).
  { apply in_flat_map. exists c. split; [exact Hc|]. destruct (sc_dec (scope_of c) (scope_of c)); [|contradiction]. destruct (pts c); [contradiction|left; reflexivity]. }
  exists (mk_sm (scope_of c) (scope_report sc_dec p start time pts cs (scope_of c))). split; [|split; [reflexivity|exact H]].
  apply in_flat_map. exists (scope_of c). split; [exact Hs|]. destruct (scope_report sc_dec p start time pts cs (scope_of c)); [destruct H|left; reflexivity].
Qed.
(** ... and nothing else: every metric is that of a stream with points. *)
Lemma of_report p (start time : config -> Z) (pts : config -> list (attrs * agg_state)) cs scs sm m :
  In sm (report sc_dec p start time pts cs scs) -> In m (sm_metrics sm) ->
  exists c, In c cs /\ sm_scope sm = scope_of c /\ pts c <> [] /\ m = metric_of p (start c) (time c) c (pts c).
Proof.
  intros H Hm. apply in_flat_map in H. destruct H as (sc & _ & H). destruct (scope_report sc_dec p start time pts cs sc) as [|m0 ms] eqn:E; [destruct H|].
  destruct H as [<-|[]]. cbn [sm_metrics sm_scope] in *. rewrite <- E in Hm. apply in_flat_map in Hm. destruct Hm as (c & Hc & Hm). destruct (sc_dec (scope_of c) sc) as [<-|]; [|destruct Hm].
  exists c. split; [exact Hc|]. split; [reflexivity|]. destruct (pts c) as [|q qs] eqn:Eq; [destruct Hm|]. split; [discriminate|]. destruct Hm as [<-|[]]. reflexivity.
Qed.
End request.
