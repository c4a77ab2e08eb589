(** C165: what the application measures is what an OTLP receiver reads. *)
From Coq Require Import String List Bool Arith NArith ZArith Lia.
From Verif Require Import Str F64 InstrModel ProviderModel AttrModel AttrProofs ValueMapModel ValueMapProps SeqModel SeqSpec
  PipelineModel PipelineProps ProduceModel EndModel EndSpec EndProofs EndProps HistModel HistProps MetricWireModel MetricWireSpec MetricWireProofs.
From Verif Require KvModel OtlpModel ProtoModel ProtoSpec ProtoProps.
Import ListNotations.
Local Open Scope nat_scope.

Section spec.
Context {Vl : Type} (sc_dec : forall x y : InstrModel.scope (kv Vl), {x = y} + {x <> y}) (keq : forall x y : list (kv Vl), {x = y} + {x <> y})
  (views : list (instrument (kv Vl) -> option stream)) (canonical : list (kv Vl) -> list (kv Vl)).
Notation V := (list (kv Vl) * number)%type.
(** The attribute sets that occur in the measurements [w] of a stream, and the
    measurements with the attributes [a]. *)
Definition occurs (c : @config (kv Vl)) (w : list V) (s : list (kv Vl)) : Prop := exists x, In x w /\ canonical (kept c (fst x)) = s.
Definition few_sets (c : @config (kv Vl)) (w : list V) : Prop :=
  forall sets, NoDup sets -> (forall s, In s sets -> occurs c w s) -> length sets <= N.to_nat (c_limit c).
Definition with_attrs (c : @config (kv Vl)) (w : list V) (a : list (kv Vl)) : list number :=
  map snd (filter (fun x => if keq (canonical (kept c (fst x))) (canonical a) then true else false) w).
End spec.

(** For every program, that is every sequence of instrument creations, measurements and
    collections whose calls are well typed, and every set of views: the bytes that the OTLP exporter makes of
    a collection are read by an OTLP receiver as a request which holds
    - the resource;
    - for every stream that was measured in the window of the collection, and has not
      outgrown its cardinality limit, a metric under the stream's scope, name, description and unit,
      with exactly one data point for each attribute set measured, showing the window's start and
      the time of the collection, and the sum, the last value, or the explicit-bucket or exponential histogram of exactly the measurements
      with these attributes; for observable sums with delta temporality, the change of the
      last value since the window before (if attributes are given in one order, see C113);
    - no other metrics than those of measured streams. *)
Theorem C165_received : forall (Vl : Type) (val : Vl -> KvModel.value) sc_dec (veq : forall x y : Vl, {x = y} + {x <> y})
    (views : list (instrument (kv Vl) -> option stream)) yes srt ord scope_order pp fsort ln
    pref res empty_scope
    n (evs : list (@ev Vl agg_state number Z OtlpModel.resource)) before recent r obs clock buf,
  sorter_ok srt -> (forall m, pick (ord m) m <> None) -> (forall l sc, In sc (scope_order l) <-> In sc l) -> partition_point_ok pp -> f64_sort_ok fsort ->
  map ev_event evs = before ++ recent -> cut_at r before recent -> r < n -> Forall (coherent views) (creations (before ++ recent)) ->
  let streams := first_requests sc_dec [] (requests views (before ++ recent)) in
  let recent' := recent ++ [Collect r obs] in
  let window := window_of sc_dec views w_accepts (pref r) before recent' in
  let canonical := sort_and_dedup srt in
  let earlier c w := window_before sc_dec views w_accepts (pref r) r before c w in
  calls_typed val [] (before ++ recent') -> ProtoProps.typed_value (val yes) -> ProtoProps.typed_resource res ->
  (forall c, In c streams -> stream_typed val c /\ (N.of_nat (length (window c)) < 2 ^ 64)%N /\
     config_fits ln (c_impl c) /\ forall x, In x (window c) -> value_fits (c_impl c) (snd x)) ->
  exists rm req,
    snd (estep sc_dec (attrs_eq_dec veq) views yes srt ord scope_order (w_create fsort f64_MIN f64_MAX) (w_update pp ln) w_accepts w_sub pref res empty_scope
           (erun sc_dec (attrs_eq_dec veq) views yes srt ord scope_order (w_create fsort f64_MIN f64_MAX) (w_update pp ln) w_accepts w_sub pref res empty_scope n evs)
           (mk_ev (Collect r obs) clock buf)) = Some rm /\
    ProtoSpec.read_request ProtoSpec.read_metric (ProtoModel.request_bytes ProtoModel.metric_bytes [w_request val rm]) = Some [req] /\
    OtlpModel.r_rattrs req = OtlpModel.attrs_msg (OtlpModel.re_attrs res) /\
    (forall j c, nth_error streams j = Some c -> window c <> [] -> few_sets canonical c (window c) ->
       (differences (pref r) c = true -> forall w, earlier c w ->
          few_sets canonical c w /\ forall x, In x (window c) \/ In x w -> canonical (kept c (fst x)) = kept c (fst x)) ->
       exists g m start sets w,
         In g (OtlpModel.r_groups req) /\ OtlpModel.g_scope g = OtlpModel.scope_msg (w_scope val (scope_of c)) None /\ In m (OtlpModel.g_items g) /\
         OtlpModel.pm_name m = c_name c /\ OtlpModel.pm_desc m = c_desc c /\ OtlpModel.pm_unit m = c_unit c /\
         started sc_dec views (pref r) r (map (fun e => (ev_event e, ev_clock e)) evs) j c start /\
         NoDup (map canonical sets) /\ (forall s, In s (map canonical sets) <-> occurs canonical c (window c) s) /\
         earlier c w /\
         reads val (k_num (c_key c)) start (clock j) ln (c_impl c) (if per_collection (pref r) c then Delta else Cumulative) sets
           (with_attrs (attrs_eq_dec veq) canonical c (window c)) (with_attrs (attrs_eq_dec veq) canonical c w) (OtlpModel.pm_data m)) /\
    (forall g m, In g (OtlpModel.r_groups req) -> In m (OtlpModel.g_items g) ->
       exists c, In c streams /\ window c <> [] /\ OtlpModel.g_scope g = OtlpModel.scope_msg (w_scope val (scope_of c)) None /\
         OtlpModel.pm_name m = c_name c /\ OtlpModel.pm_desc m = c_desc c /\ OtlpModel.pm_unit m = c_unit c).
Proof.
  intros Vl val sc_dec veq views yes srt ord scope_order pp fsort ln pref res empty_scope n evs before recent r obs clock buf
    Hsrt Hord Hsc Hpp Hfs Hev Hcut Hr Hcoh streams recent' window canonical earlier Hcalls Hyes Hres Hst.
  destruct (C151_exported Vl agg_state number Z OtlpModel.resource sc_dec veq views yes srt ord scope_order (w_create fsort f64_MIN f64_MAX) (w_update pp ln) w_accepts
    w_sub pref res empty_scope n evs before recent r obs clock buf Hsrt Hord Hsc Hev Hcut Hr Hcoh) as (rm & start & time & pts & Erm & Eres & Hpts & Htime & Erep).
  fold streams recent' in Hpts, Htime, Erep. exists rm, (w_request val rm). split; [exact Erm|].
  set (acc := fun c => accounts (attrs_eq_dec veq) canonical [(of_string "otel.metric.overflow", yes)] (w_create fsort f64_MIN f64_MAX) (w_update pp ln) c).
  assert (Acc : forall c, In c streams -> if differences (pref r) c then exists w prev now, earlier c w /\ acc c w prev /\ acc c (window c) now /\ Forall2 (change (w_create fsort f64_MIN f64_MAX) w_sub c prev) now (pts c)
     else acc c (window c) (pts c)) by exact Hpts.
  assert (Wt : forall c x, In x (window c) -> attrs_typed val (fst x) /\ number_typed (k_num (c_key c)) (snd x)).
  { intros c x Hx. pose proof (window_typed val sc_dec views w_accepts (pref r) before recent' c Hcalls) as W. rewrite Forall_forall in W. exact (W x Hx). }
  assert (Wa : forall c x, In x (window c) -> w_accepts (c_impl c) (snd x) = true).
  { intros c x Hx. apply filter_In in Hx. apply Hx. }
  assert (Wb : forall c w x, earlier c w -> In x w -> number_typed (k_num (c_key c)) (snd x)).
  { intros c w x [[_ ->]|(b & q & o & Eb & _ & ->)] Hx; [destruct Hx|].
    pose proof (window_typed val sc_dec views w_accepts (pref r) b (q ++ [Collect r o]) c) as W.
    apply calls_typed_prefix in Hcalls. rewrite Eb in Hcalls. specialize (W Hcalls). rewrite Forall_forall in W. exact (proj2 (W x Hx)). }
  assert (Pt0 : forall c ps, In c streams -> acc c (window c) ps -> Forall (fun q => attrs_typed val (fst q) /\ state_ok (k_num (c_key c)) (c_impl c) (snd q)) ps).
  { intros c ps Hc Ha. eapply (points_typed pp fsort f64_MIN f64_MAX ln val); [exact Hpp|..|exact (Wt c)|apply (Hst c Hc)|apply (Hst c Hc)|intros x Hx; split; [apply (Hst c Hc), Hx|apply (Wa c x Hx)]|exact Ha].
    - intros k x Hx. apply canon_sub in Hx; [|exact Hsrt]. unfold kept in Hx. destruct (c_keys c); [apply filter_In in Hx; apply Hx|exact Hx].
    - intros k x Hx. unfold kept in Hx. destruct (c_keys c); [apply filter_In in Hx; apply Hx|exact Hx].
    - constructor; [|constructor]. split; [reflexivity|exact Hyes]. }
  assert (Pt : forall c, In c streams -> Forall (fun q => attrs_typed val (fst q) /\ state_ok (k_num (c_key c)) (c_impl c) (snd q)) (pts c)).
  { intros c Hc. specialize (Acc c Hc). destruct (differences (pref r) c) eqn:Ed; [|apply Pt0; assumption].
    destruct Acc as (w & prev & now & _ & _ & Hn & Hch). specialize (Pt0 c now Hc Hn). apply andb_true_iff in Ed. destruct Ed as [Ed _]. clear -Pt0 Hch Ed.
    induction Hch as [|x p now ps [E1 E2] _ IH]; [constructor|]. inversion Pt0 as [|? ? [P1 P2] P3]; subst. constructor; [|apply IH, P3]. rewrite E1. split; [exact P1|].
    destruct E2 as [(v & _ & ->)|[_ ->]]; apply sub_typed; assumption. }
  assert (Ew : w_request val rm = OtlpModel.metrics_msg res (map (fun sm => (w_scope val (sm_scope sm), map (w_metric val) (sm_metrics sm)))
    (report sc_dec (pref r) start time pts streams (scope_order (map scope_of streams))))).
  { unfold w_request. rewrite Eres, Erep. reflexivity. }
  split. { rewrite Ew. apply ProtoProps.C158_metrics_arrive; [exact Hres|]. apply report_typed; [intros sc; apply Hsc|intros c Hc; apply (Hst c Hc)|exact Pt]. }
  rewrite Ew. unfold OtlpModel.metrics_msg. cbn [OtlpModel.r_rattrs OtlpModel.r_groups]. split; [reflexivity|]. rewrite map_map. cbn [fst snd].
  assert (Ne0 : forall c ps, acc c (window c) ps -> (window c <> [] <-> ps <> [])).
  { intros c ps (bk & E1 & _ & _ & E3 & E4). split; intros H E.
    - destruct bk as [|[s x] bk]; [apply H; symmetry; exact E1|]. destruct (E4 s x (or_introl eq_refl)) as (q & Hq & _). rewrite E in Hq. destruct Hq.
    - destruct ps as [|q qs]; [contradiction|]. destruct (E3 q (or_introl eq_refl)) as ((x & Hx & _) & _). rewrite E in E1. destruct bk; [destruct Hx|discriminate]. }
  assert (Ne : forall c, In c streams -> (window c <> [] <-> pts c <> [])).
  { intros c Hc. specialize (Acc c Hc). destruct (differences (pref r) c); [|apply Ne0, Acc]. destruct Acc as (w & prev & now & _ & _ & Hn & Hch). rewrite (Ne0 c now Hn).
    destruct Hch; split; intros X; (contradiction || discriminate). }
  split.
  - intros j c Hj Hw Hfew Hreg. assert (Hc : In c streams) by (eapply nth_error_In, Hj). destruct (Htime j c Hj) as [Et Hstart].
    destruct (in_report sc_dec (pref r) start time pts streams (scope_order (map scope_of streams)) c Hc) as (sm & S1 & S2 & S3);
      [apply Hsc, in_map, Hc|apply Ne; assumption|].
    assert (Main : exists w, NoDup (map canonical (map fst (pts c))) /\ (forall s, In s (map canonical (map fst (pts c))) <-> occurs canonical c (window c) s) /\ earlier c w /\
      reads val (k_num (c_key c)) (start c) (time c) ln (c_impl c) (if per_collection (pref r) c then Delta else Cumulative) (map fst (pts c))
        (with_attrs (attrs_eq_dec veq) canonical c (window c)) (with_attrs (attrs_eq_dec veq) canonical c w)
        (OtlpModel.pm_data (OtlpModel.metric_msg (w_metric val (metric_of (pref r) (start c) (time c) c (pts c)))))).
    2: { destruct Main as (w & M1 & M2 & M3 & M4). rewrite Et in M4 at 1.
      eexists _, _, (start c), (map fst (pts c)), w. split; [apply in_map, S1|]. cbn [OtlpModel.g_scope OtlpModel.g_items]. split; [rewrite S2; reflexivity|]. split; [apply in_map, in_map, S3|].
      do 3 (split; [reflexivity|]). split; [exact Hstart|]. split; [exact M1|]. split; [exact M2|]. split; [exact M3|]. exact M4. }
    assert (Typed : forall a w, (forall x, In x w -> number_typed (k_num (c_key c)) (snd x)) -> Forall (number_typed (k_num (c_key c))) (with_attrs (attrs_eq_dec veq) canonical c w a)).
    { intros a w Hx. apply Forall_forall. intros v Hv. apply in_map_iff in Hv. destruct Hv as (x & <- & Hv). apply filter_In in Hv. apply Hx, Hv. }
    assert (Some_ : forall a, occurs canonical c (window c) (canonical a) -> with_attrs (attrs_eq_dec veq) canonical c (window c) a <> []).
    { intros a (x & X1 & X2) E. apply map_eq_nil in E.
      assert (I : In x []); [|destruct I]. rewrite <- E. apply filter_In. split; [exact X1|]. destruct (attrs_eq_dec veq (canonical (kept c (fst x))) (canonical a)); [reflexivity|contradiction]. }
    pose proof (Acc c Hc) as Ac. destruct (differences (pref r) c) eqn:Ed.
    + destruct Ac as (w & prev & now & Hb & Hp & Hn & Hch). destruct (Hreg eq_refl w Hb) as [Hfew' Hcan]. exists w.
      destruct (C151_observed Vl agg_state number (attrs_eq_dec veq) canonical _ _ _ w_sub c (window c) w prev now (pts c) Hp Hn Hch) as (O1 & O2 & O3);
        [intros sets w0 [->| ->]; [apply Hfew|apply Hfew']|exact Hcan|].
      assert (Cp : map canonical (map fst (pts c)) = map fst (pts c)).
      { rewrite <- (map_id (map fst (pts c))) at 2. apply map_ext_in. intros s Hs. apply O2 in Hs. destruct Hs as (x & Hx & <-). apply Hcan. auto. }
      rewrite Cp. split; [exact O1|]. split.
      { intros s. rewrite O2. unfold occurs. split; intros (x & X1 & X2); exists x; (split; [exact X1|]); rewrite (Hcan x (or_introl X1)) in *; exact X2. }
      split; [exact Hb|]. assert (Cq : forall q, In q (pts c) -> canonical (fst q) = fst q).
      { intros q Hq. assert (Hs : In (fst q) (map fst (pts c))) by (apply in_map, Hq). apply O2 in Hs. destruct Hs as (x & Hx & <-). apply Hcan. auto. }
      assert (Wq : forall q w0, In q (pts c) -> (w0 = window c \/ w0 = w) -> with_attrs (attrs_eq_dec veq) canonical c w0 (fst q) =
        map snd (filter (fun x => if attrs_eq_dec veq (kept c (fst x)) (fst q) then true else false) w0)).
      { intros q w0 Hq Hw0. unfold with_attrs. f_equal. apply filter_ext_in. intros x Hx. rewrite (Cq q Hq), Hcan by (destruct Hw0 as [<-|<-]; auto). reflexivity. }
      apply (change_reads pp fsort val ln c); [exact Ed|reflexivity|..].
      * intros q Hq. rewrite (Wq q _ Hq (or_introl eq_refl)), (Wq q _ Hq (or_intror eq_refl)). apply (O3 q Hq).
      * intros q Hq. split; [apply Typed; intros x Hx; apply (Wt c x Hx)|]. split; [|apply Typed; intros x Hx; exact (Wb c w x Hb Hx)].
        apply Some_. assert (Hs : In (fst q) (map fst (pts c))) by (apply in_map, Hq). apply O2 in Hs. destruct Hs as (x & X1 & X2). exists x. split; [exact X1|]. congruence.
    + assert (Hb : exists w, earlier c w).
      { destruct Hcut as [[E|(b & o & E)] _]; [exists []; left; auto|]. destruct (cut_exists r b) as (b1 & q1 & -> & Hc1). eexists. right. exists b1, q1, o. rewrite <- app_assoc in E. split; [exact E|]. split; [exact Hc1|reflexivity]. }
      destruct Hb as (w & Hb). exists w.
      destruct (C151_within_limit _ _ _ _ _ _ _ _ _ _ _ _ _ Ac) as (W1 & W2 & W3); [exact Hfew|].
      rewrite map_map. split; [exact W1|].
      assert (Oc : forall s, In s (map (fun x => canonical (fst x)) (pts c)) <-> occurs canonical c (window c) s).
      { intros s. unfold occurs. rewrite (W2 s). rewrite in_map_iff. split; intros (q & Q1 & Q2); exists q; auto. }
      split; [exact Oc|]. split; [exact Hb|]. apply (metric_reads pp fsort Hpp Hfs val ln c); [apply (Hst c Hc)|exact Ed|reflexivity|..].
      * intros q Hq. apply (W3 q Hq).
      * intros q Hq. split; [apply Typed; intros x Hx; apply (Wt c x Hx)|]. apply Some_, Oc. apply in_map_iff. exists q. auto.
      * intros q Hq. split; apply Forall_forall; intros v Hv; apply in_map_iff in Hv; destruct Hv as (x & <- & Hv); apply filter_In in Hv; [apply (Hst c Hc), Hv|apply (Wa c x), Hv].
  - intros g m Hg Hm. apply in_map_iff in Hg. destruct Hg as (sm & <- & Hsm). cbn [OtlpModel.g_items OtlpModel.g_scope] in *. rewrite map_map in Hm. apply in_map_iff in Hm. destruct Hm as (m0 & <- & Hm).
    destruct (of_report _ _ _ _ _ _ _ _ _ Hsm Hm) as (c & Hc & Es & Hp & ->). exists c. split; [exact Hc|]. split; [apply Ne; assumption|]. rewrite Es. auto.
Qed.
Print Assumptions C165_received.

(** All measurements count, except what is not finite for exponential histograms (C111). *)
Theorem C165_ignored : forall im v, w_accepts im v = false <-> exists size scale mm rs f, im = IExpo size scale mm rs /\ v = NF f /\ f64_is_finite f = false.
Proof.
  intros im v. split.
  - destruct im, v; try discriminate. intros H. repeat eexists. exact H.
  - intros (size & scale & mm & rs & f & -> & -> & H). exact H.
Qed.
Print Assumptions C165_ignored.

(** With more sets than the limit, the points are those of [C151_exported]: the rest
    goes to the overflow point. *)

(** A counter renamed by a view that keeps one attribute, a histogram of floats with the
    boundaries 0, 5 and 10, a gauge and an exponential histogram, measured with attributes in several orders. *)
Section example.
Open Scope string_scope.
(** A logarithm that is not looked at: the example's histogram has scale 0. *)
Definition ln1 (f : f64) : f64 := f.
Notation at1 k v := ((of_string k : list N, v%Z) : kv Z).
Definition hist1 : @args (kv Z) := mk_args sc1 F64n KHistogram (of_string "h") None (Some (of_string "ms")) (Some (map f64_of_Z [0; 5; 10]%Z)) None 0.
Definition gauge1 : @args (kv Z) := mk_args sc1 I64 KGauge (of_string "g") (Some (of_string "about")) None None None 0.
Definition expo1 : @args (kv Z) := mk_args sc1 F64n KHistogram (of_string "e") None None None None 0.
(** A view that makes an exponential histogram of 160 buckets and scale 0 of "e". *)
Definition v2 (i : instrument (kv Z)) : option stream :=
  if str_eqb (i_name i) (of_string "e") then Some (mk_stream (of_string "e") [] [] (Some (AExpo 160 0 true)) None None) else None.
Definition wtick (t : Z) (e : @event (kv Z) (list (kv Z) * number)) : @ev Z agg_state number Z OtlpModel.resource :=
  mk_ev e (fun j => t + Z.of_nat j)%Z (mk_rm (OtlpModel.mk_resource [] None) []).
Definition wobs : nat -> nat -> list (list (kv Z) * number) := fun _ _ => [].
Definition wres : OtlpModel.resource := OtlpModel.mk_resource [(of_string "service.name", KvModel.VString (of_string "s"))] None.
Definition wval (z : Z) : KvModel.value := KvModel.VI64 z.
Notation west := (estep kvz_scope_dec (attrs_eq_dec Z.eq_dec) [v1; v2] 1%Z isort (fun m => seq 0 (length m)) (nodup kvz_scope_dec)
   (w_create (fun l => l) f64_MIN f64_MAX) (w_update pp_linear ln1) w_accepts w_sub ex_pref wres sc1).
Notation weru := (erun kvz_scope_dec (attrs_eq_dec Z.eq_dec) [v1; v2] 1%Z isort (fun m => seq 0 (length m)) (nodup kvz_scope_dec)
   (w_create (fun l => l) f64_MIN f64_MAX) (w_update pp_linear ln1) w_accepts w_sub ex_pref wres sc1 2).
Notation ms h a v := (PipelineModel.Measure h (a, v)).
Definition wevs := [wtick 1 (Create (counter "a")); wtick 2 (Create hist1); wtick 3 (Create gauge1); wtick 3 (Create expo1);
  wtick 4 (ms 0 [at1 "k" 1; at1 "z" 5] (NZ 10)); wtick 5 (PipelineModel.Collect 0 wobs);
  wtick 6 (ms 0 [at1 "z" 6; at1 "k" 1] (NZ 7)); wtick 7 (ms 0 [at1 "k" 2] (NZ 1));
  wtick 8 (ms 1 [at1 "x" 1] (NF (f64_of_Z 5))); wtick 9 (ms 1 [at1 "x" 1] (NF (f64_of_Z 12)));
  wtick 10 (ms 2 [at1 "y" 2; at1 "x" 1] (NZ 4)); wtick 11 (ms 2 [at1 "x" 1; at1 "y" 2] (NZ (-6)));
  wtick 12 (ms 3 [at1 "x" 1] (NF (f64_of_Z 5))); wtick 13 (ms 3 [at1 "x" 1] (NF (f64_of_Z (-9)))); wtick 14 (ms 3 [at1 "x" 1] (NF (f64_of_Z 0)));
  wtick 15 (ms 3 [at1 "x" 1] (NF (f64_of_Z 2))); wtick 16 (ms 3 [at1 "x" 1] (NF (f64_of_Z 8)))].
Definition attr1 k z : str * OtlpModel.any := (of_string k, OtlpModel.PInt z).
(** The request, with floats by their bits. *)
Inductive shown :=
| ShownSum (points : list (list (str * OtlpModel.any) * Z * Z * OtlpModel.pnum)) (t : Z) (mono : bool)
| ShownGauge (points : list (list (str * OtlpModel.any) * Z * Z * OtlpModel.pnum))
| ShownHist (points : list (list (str * OtlpModel.any) * Z * Z * N * Z * list N * list Z * option Z * option Z)) (t : Z)
| ShownExpo (points : list (list (str * OtlpModel.any) * Z * Z * N * Z * Z * N * (Z * list N) * (Z * list N) * option Z * option Z)) (t : Z).
Definition npoint_shown (p : OtlpModel.pnpoint) := (OtlpModel.pn_attrs p, OtlpModel.pn_start p, OtlpModel.pn_time p, OtlpModel.pn_value p).
Definition shown_of (m : OtlpModel.pmetric) : str * str * str * option shown :=
  (OtlpModel.pm_name m, OtlpModel.pm_desc m, OtlpModel.pm_unit m,
   match OtlpModel.pm_data m with
   | OtlpModel.PSum ps t mono => Some (ShownSum (map npoint_shown ps) t mono)
   | OtlpModel.PGauge ps => Some (ShownGauge (map npoint_shown ps))
   | OtlpModel.PHist ps t => Some (ShownHist (map (fun p => (OtlpModel.ph_attrs p, OtlpModel.ph_start p, OtlpModel.ph_time p, OtlpModel.ph_count p, f64_bits (OtlpModel.ph_sum p),
       OtlpModel.ph_buckets p, map f64_bits (OtlpModel.ph_bounds p), option_map f64_bits (OtlpModel.ph_min p), option_map f64_bits (OtlpModel.ph_max p))) ps) t)
   | OtlpModel.PExpo ps t => Some (ShownExpo (map (fun p => (OtlpModel.pp_attrs p, OtlpModel.pp_start p, OtlpModel.pp_time p, OtlpModel.pp_count p, f64_bits (OtlpModel.pp_sum p),
       OtlpModel.pp_scale p, OtlpModel.pp_zero p, OtlpModel.pp_pos p, OtlpModel.pp_neg p, option_map f64_bits (OtlpModel.pp_min p), option_map f64_bits (OtlpModel.pp_max p))) ps) t)
   end).
Definition read_shown (o : option (@resource_metrics (InstrModel.scope (kv Z)) OtlpModel.resource Z (list (kv Z) * agg_state))) :=
  match o with
  | Some rm =>
    match ProtoSpec.read_request ProtoSpec.read_metric (ProtoModel.request_bytes ProtoModel.metric_bytes [w_request wval rm]) with
    | Some [req] => map (fun g => map shown_of (OtlpModel.g_items g)) (OtlpModel.r_groups req)
    | _ => []
    end
  | None => []
  end.
Example C165_nonvacuous :
  read_shown (snd (west (weru wevs) (wtick 20 (PipelineModel.Collect 0 wobs)))) =
    [[(of_string "total", of_string "d", [], Some (ShownSum [([attr1 "k" 1], 5, 20, OtlpModel.AsInt 7); ([attr1 "k" 2], 5, 20, OtlpModel.AsInt 1)] 1 true));
      (of_string "h", [], of_string "ms",
       Some (ShownHist [([attr1 "x" 1], 6, 21, 2%N, f64_bits (f64_of_Z 17), [0; 1; 0; 1]%N, map (fun z => f64_bits (f64_of_Z z)) [0; 5; 10]%Z, Some (f64_bits (f64_of_Z 5)), Some (f64_bits (f64_of_Z 12)))] 1));
      (of_string "g", of_string "about", [], Some (ShownGauge [([attr1 "y" 2; attr1 "x" 1], 7, 22, OtlpModel.AsInt (-6))]));
      (of_string "e", [], [], Some (ShownExpo [([attr1 "x" 1], 8, 23, 5%N, f64_bits (f64_of_Z 6), 0, 1%N, (0, [1; 0; 2]%N), (3, [1]%N), Some (f64_bits (f64_of_Z (-9))), Some (f64_bits (f64_of_Z 8)))] 1))]]%Z /\
  calls_typed wval [] (map ev_event wevs ++ [PipelineModel.Collect 0 wobs]) /\
  Forall (stream_typed wval) (first_requests kvz_scope_dec [] (requests [v1; v2] (map ev_event wevs))) /\
  length (first_requests kvz_scope_dec [] (requests [v1; v2] (map ev_event wevs))) = 4 /\
  Forall (fun c => config_fits ln1 (c_impl c)) (first_requests kvz_scope_dec [] (requests [v1; v2] (map ev_event wevs))) /\
  cut_at 0 (map ev_event (firstn 6 wevs)) (map ev_event (skipn 6 wevs)).
Proof.
  split; [|split; [|split; [|split; [|split]]]].
  - vm_compute. reflexivity.
  - cbn [map wevs app ev_event wtick calls_typed].
    repeat (split; [intros h a v Ha Hb; cbn [brings] in Hb;
      lazymatch type of Hb with
      | False => destruct Hb
      | exists _, _ => destruct Hb as (? & [])
      | _ => destruct Hb as [<- <-]; injection Ha as <-; split; [repeat constructor; cbn; unfold ProtoSpec.i64; lia|cbn; lia || exact I]
      end|]); exact I.
  - set (ok := fun c : @config (kv Z) => wf_str (c_name c) && wf_str (c_desc c) && wf_str (c_unit c) && (if kvz_scope_dec (scope_of c) sc1 then true else false)).
    assert (A : forallb ok (first_requests kvz_scope_dec [] (requests [v1; v2] (map ev_event wevs))) = true) by (vm_compute; reflexivity).
    rewrite forallb_forall in A. apply Forall_forall. intros c Hc. specialize (A c Hc). unfold ok in A. rewrite !andb_true_iff in A. destruct A as [[[A1 A2] A3] A4].
    split; [exact A1|]. split; [exact A2|]. split; [exact A3|].
    destruct (kvz_scope_dec (scope_of c) sc1) as [->|]; [|discriminate]. repeat constructor.
  - vm_compute. reflexivity.
  - set (ok := fun c : @config (kv Z) => match c_impl c with IExpo size scale _ _ => (size =? 160)%N && (scale =? 0)%Z | _ => true end).
    assert (A : forallb ok (first_requests kvz_scope_dec [] (requests [v1; v2] (map ev_event wevs))) = true) by (vm_compute; reflexivity).
    rewrite forallb_forall in A. apply Forall_forall. intros c Hc. specialize (A c Hc). unfold ok in A. destruct (c_impl c); try exact I.
    apply andb_true_iff in A. destruct A as [A1 A2]. apply N.eqb_eq in A1. apply Z.eqb_eq in A2. subst. cbn. lia.
  - split; [right; exists (map ev_event (firstn 5 wevs)), wobs; reflexivity|]. cbn. intros o H. repeat (destruct H as [H|H]; [discriminate H|]). destruct H.
Qed.

(** An observable counter: the change since the collection before; the conditions on
    the two windows hold. *)
Definition wobs1 (z : Z) : nat -> nat -> list (list (kv Z) * number) := fun _ _ => [([at1 "j" 3; at1 "k" 1], NZ z); ([], NZ 1)].
Definition wobs_evs := [wtick 1 (Create (observable KObsCounter "c")); wtick 3 (PipelineModel.Collect 0 (wobs1 10))].
Definition wstream : @config (kv Z) := nth 0 (first_requests kvz_scope_dec [] (requests [v1; v2] (map ev_event wobs_evs))) (mk_cfg (mk_key sc1 I64 KCounter [] [] []) [] [] [] (ISum true) None 0).
Example C165_observable_nonvacuous :
  read_shown (snd (west (weru wobs_evs) (wtick 20 (PipelineModel.Collect 0 (wobs1 17))))) =
    [[(of_string "c", [], [], Some (ShownSum [([], 3, 20, OtlpModel.AsInt 0); ([attr1 "j" 3; attr1 "k" 1], 3, 20, OtlpModel.AsInt 7)] 1 true))]]%Z /\
  first_requests kvz_scope_dec [] (requests [v1; v2] (map ev_event wobs_evs)) = [wstream] /\
  differences (ex_pref 0) wstream = true /\
  (let canonical := sort_and_dedup isort in
   let window := window_of kvz_scope_dec [v1; v2] w_accepts (ex_pref 0) (map ev_event wobs_evs) [PipelineModel.Collect 0 (wobs1 17)] wstream in
   map snd window = [NZ 17; NZ 1] /\
   exists w, window_before kvz_scope_dec [v1; v2] w_accepts (ex_pref 0) 0 (map ev_event wobs_evs) wstream w /\ map snd w = [NZ 10; NZ 1] /\
     Forall (fun x => canonical (kept wstream (fst x)) = kept wstream (fst x)) (window ++ w)).
Proof.
  split; [vm_compute; reflexivity|]. split; [vm_compute; reflexivity|]. split; [vm_compute; reflexivity|]. split; [vm_compute; reflexivity|].
  eexists. split; [right; exists [], [Create (observable KObsCounter "c")], (wobs1 10); split; [reflexivity|]; split; [split; [left; reflexivity|intros o [X|[]]; discriminate X]|reflexivity]|].
  split; [vm_compute; reflexivity|]. repeat constructor.
Qed.
End example.
