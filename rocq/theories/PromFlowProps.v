(** C175: what the application measures is what Prometheus scrapes. *)
From Coq Require Import String List Bool Arith NArith ZArith Lia Permutation.
From Verif Require Import Str StrProofs F64 InstrModel ProviderModel AttrModel AttrProofs ValueMapModel ValueMapProps SeqModel SeqSpec
  PipelineModel PipelineProps ProduceModel EndModel EndSpec EndProofs EndProps HistModel HistProps MetricWireModel MetricWireSpec MetricWireProofs MetricWireProps
  PromFlowSpec PromFlowProofs.
From Verif Require KvModel OtlpModel ProtoProps PromModel PromProps PromScrapeProps.
Import ListNotations.
Local Open Scope nat_scope.

(** The collected metrics as the exporter is given them (opentelemetry-prometheus/src/lib.rs:299-311). *)
Definition collected {Vl} (val : Vl -> KvModel.value) (rm : @resource_metrics (InstrModel.scope (kv Vl)) OtlpModel.resource Z (list (kv Vl) * agg_state)) : list (KvModel.scope * list OtlpModel.metric) :=
  map (fun sm => (w_scope val (sm_scope sm), map (w_metric val) (sm_metrics sm))) (rm_scopes rm).

(** For every program, that is every sequence of instrument creations, measurements and
    collections whose calls are well typed, and every set of views: a scrape by a Prometheus exporter that knows the families [s] from
    earlier scrapes succeeds, and shows
    - the info metrics (C148);
    - for every stream measured since the start (for observable instruments: in this collection) and
      within its cardinality limit, exactly one sample for each attribute set measured, with
      the stream's name and type, the attributes and the scope as labels, and the sum, the
      last value or the cumulative histogram of exactly the measurements with these
      attributes;
    - nothing for exponential histograms, for streams that were not measured and for
      streams whose name is already that of a family of another type; a name's type and
      help text never change;
    - nothing else. *)
Theorem C175_scraped : forall (Vl : Type) (val : Vl -> KvModel.value) sc_dec (veq : forall x y : Vl, {x = y} + {x <> y})
    (views : list (instrument (kv Vl) -> option stream)) yes srt ord scope_order pp fsort ln
    pref res empty_scope
    n (evs : list (@ev Vl agg_state number Z OtlpModel.resource)) before recent r obs clock buf alnum show cfg s,
  sorter_ok srt -> (forall m, pick (ord m) m <> None) -> (forall l sc, In sc (scope_order l) <-> In sc l) -> (forall l, NoDup (scope_order l)) ->
  partition_point_ok pp -> f64_sort_ok fsort ->
  map ev_event evs = before ++ recent -> cut_at r before recent -> r < n -> Forall (coherent views) (creations (before ++ recent)) ->
  pref r = Cumulative ->
  let streams := first_requests sc_dec [] (requests views (before ++ recent)) in
  let recent' := recent ++ [Collect r obs] in
  let window := window_of sc_dec views w_accepts (pref r) before recent' in
  let canonical := sort_and_dedup srt in
  calls_typed val [] (before ++ recent') -> (forall c, In c streams -> (N.of_nat (length (window c)) < 2 ^ 64)%N) ->
  exists rm fs s' infos shown,
    snd (estep sc_dec (attrs_eq_dec veq) views yes srt ord scope_order (w_create fsort f64_MIN f64_MAX) (w_update pp ln) w_accepts w_sub pref res empty_scope
           (erun sc_dec (attrs_eq_dec veq) views yes srt ord scope_order (w_create fsort f64_MIN f64_MAX) (w_update pp ln) w_accepts w_sub pref res empty_scope n evs)
           (mk_ev (Collect r obs) clock buf)) = Some rm /\
    PromModel.collect alnum show cfg (OtlpModel.re_attrs (rm_resource rm)) (collected val rm) s = Some (fs, s') /\
    rm_resource rm = res /\
    Permutation fs (infos ++ flat_map shown streams) /\ Forall PromProps.info infos /\
    (forall c, In c streams -> window c = [] -> shown c = []) /\
    (forall c, In c streams -> exported alnum cfg c = None -> shown c = []) /\
    (forall c t name, In c streams -> window c <> [] -> exported alnum cfg c = Some (t, name) ->
       exists t' help, PromModel.find_fam name s' = Some (t', help) /\
         (t' <> t -> shown c = []) /\
         (t' = t -> few_sets canonical c (window c) ->
            exists sets extra, PromScrapeProps.common_labels show cfg (OtlpModel.re_attrs res) (w_scope val (scope_of c)) extra /\
              NoDup (map canonical sets) /\ (forall a, In a (map canonical sets) <-> occurs canonical c (window c) a) /\
              Forall2 (fun a f => PromModel.f_name f = name /\ PromModel.f_help f = help /\ PromModel.f_type f = t /\
                 PromModel.f_labels f = PromModel.get_attrs show (map (w_attr val) a) extra /\
                 sample (k_num (c_key c)) (c_impl c) (with_attrs (attrs_eq_dec veq) canonical c (window c) a) (PromModel.f_value f)) sets (shown c))) /\
    (forall name v, PromModel.find_fam name s = Some v -> PromModel.find_fam name s' = Some v) /\
    (forall name t help, PromModel.find_fam name s' = Some (t, help) ->
       PromModel.find_fam name s = Some (t, help) \/
       exists c, In c streams /\ window c <> [] /\ exported alnum cfg c = Some (t, name) /\ c_desc c = help).
Proof.
  intros Vl val sc_dec veq views yes srt ord scope_order pp fsort ln pref res empty_scope n evs before recent r obs clock buf alnum show cfg s
    Hsrt Hord Hsc Hnd Hpp Hfs Hev Hcut Hr Hcoh Hpref streams recent' window canonical Hcalls Hlen.
  destruct (C151_exported Vl agg_state number Z OtlpModel.resource sc_dec veq views yes srt ord scope_order (w_create fsort f64_MIN f64_MAX) (w_update pp ln) w_accepts
    w_sub pref res empty_scope n evs before recent r obs clock buf Hsrt Hord Hsc Hev Hcut Hr Hcoh) as (rm & start & time & pts & Erm & Eres & Hpts & _ & Erep).
  fold streams recent' in Hpts, Erep.
  set (acc := fun c => accounts (attrs_eq_dec veq) canonical [(of_string "otel.metric.overflow", yes)] (w_create fsort f64_MIN f64_MAX) (w_update pp ln) c).
  assert (Df : forall c : @config (kv Vl), differences (pref r) c = false).
  { intros c. rewrite Hpref. unfold differences, precomputed, per_collection. destruct (c_impl c); reflexivity. }
  assert (Acc : forall c, In c streams -> acc c (window c) (pts c)).
  { intros c Hc. specialize (Hpts c Hc). unfold points_right in Hpts. rewrite (Df c) in Hpts. exact Hpts. }
  assert (Wt : forall c x, In x (window c) -> number_typed (k_num (c_key c)) (snd x)).
  { intros c x Hx. pose proof (window_typed val sc_dec views w_accepts (pref r) before recent' c Hcalls) as W. rewrite Forall_forall in W. exact (proj2 (W x Hx)). }
  assert (Ne : forall c, In c streams -> (window c <> [] <-> pts c <> [])).
  { intros c Hc. destruct (Acc c Hc) as (bk & E1 & _ & _ & E3 & E4). split; intros H E.
    - destruct bk as [|[a x] bk]; [apply H; symmetry; exact E1|]. destruct (E4 a x (or_introl eq_refl)) as (q & Hq & _). rewrite E in Hq. destruct Hq.
    - destruct (pts c) as [|q qs]; [contradiction|]. destruct (E3 q (or_introl eq_refl)) as ((x & Hx & _) & _). rewrite E in E1. destruct bk; [destruct Hx|discriminate]. }
  assert (Sh : forall c, In c streams -> Forall (fun q => shaped (snd q)) (pts c)).
  { intros c Hc. destruct (Acc c Hc) as (bk & _ & _ & _ & E3 & _). apply Forall_forall. intros q Hq. destruct (E3 q Hq) as [_ E]. rewrite E. apply shaped_all, shaped_new. }
  set (scs := scope_order (map scope_of streams)) in *. set (M := fun c => w_metric val (metric_of (pref r) (start c) (time c) c (pts c))).
  set (sms := collected val rm). assert (Esms : sms = map (fun sm => (w_scope val (sm_scope sm), map (w_metric val) (sm_metrics sm))) (report sc_dec (pref r) start time pts streams scs)).
  { unfold sms, collected. rewrite Erep. reflexivity. }
  assert (From : forall m, In m (flat_map snd sms) -> exists c, In c streams /\ window c <> [] /\ m = M c).
  { intros m Hm. rewrite Esms in Hm. apply in_flat_map in Hm. destruct Hm as (sm' & S1 & S2). apply in_map_iff in S1. destruct S1 as (sm & <- & S1). cbn [snd] in S2. apply in_map_iff in S2. destruct S2 as (m0 & <- & S2).
    destruct (of_report _ _ _ _ _ _ _ _ _ S1 S2) as (c & Hc & _ & Hp & ->). exists c. split; [exact Hc|]. split; [apply Ne; assumption|reflexivity]. }
  assert (To : forall c, In c streams -> window c <> [] -> In (M c) (flat_map snd sms)).
  { intros c Hc Hw. destruct (in_report sc_dec (pref r) start time pts streams scs c Hc) as (sm & S1 & S2 & S3); [apply Hsc, in_map, Hc|apply Ne; assumption|].
    rewrite Esms. apply in_flat_map. eexists. split; [apply in_map, S1|]. cbn [snd]. unfold M. apply (in_map (w_metric val)), S3. }
  assert (Fine : Forall (fun sm => Forall (fine show) (snd sm)) sms).
  { apply Forall_forall. intros sm Hsm. apply Forall_forall. intros m Hm. destruct (From m) as (c & Hc & _ & ->); [apply in_flat_map; exists sm; auto|]. apply stream_fine, Sh, Hc. }
  set (rl := PromModel.select show (PromModel.selector cfg) (OtlpModel.re_attrs res)).
  set (s' := PromProps.registers alnum cfg (flat_map snd sms) s).
  set (E := fun c : @config (kv Vl) => scope_extra cfg rl (w_scope val (scope_of c))).
  set (shown := fun c => match pts c with [] => [] | _ => famof alnum show cfg s' (E c) (M c) end).
  set (target := if PromModel.disable_target_info cfg then [] else match OtlpModel.re_attrs res with [] => [] | _ => [PromModel.target_info show (OtlpModel.re_attrs res)] end).
  exists rm. eexists _, s', (target ++ flat_map (fun sm => scope_infos cfg (fst sm)) sms), shown. split; [exact Erm|].
  split. { unfold PromModel.collect. rewrite Eres. fold rl sms target. rewrite (scopes_ok alnum show cfg rl sms s Fine). cbn [option_map fst snd]. reflexivity. }
  split; [exact Eres|].
  split.
  { fold s'. rewrite <- app_assoc. apply Permutation_app_head. etransitivity; [apply (flat_map_split (fun sm => scope_infos cfg (fst sm)) (fun sm => flat_map (famof alnum show cfg s' (scope_extra cfg rl (fst sm))) (snd sm)))|].
    apply Permutation_app_head. etransitivity; [|apply (by_group sc_dec scope_of shown streams scs (Hnd _)); intros c Hc; apply Hsc, in_map, Hc].
    apply Permutation_refl'. rewrite Esms. exact (report_flat val sc_dec (fun sc => famof alnum show cfg s' (scope_extra cfg rl sc)) (pref r) start time pts streams scs). }
  split.
  { apply Forall_app. split.
    - unfold target. destruct (PromModel.disable_target_info cfg); [constructor|]. destruct (OtlpModel.re_attrs res); [constructor|]. constructor; [left; reflexivity|constructor].
    - apply Forall_flat. intros sm _. unfold scope_infos. destruct (PromModel.disable_scope_info cfg); [constructor|]. destruct (KvModel.sc_attrs (fst sm)); [constructor|]. constructor; [right; reflexivity|constructor]. }
  split. { intros c Hc Hw. unfold shown. destruct (pts c) as [|q qs] eqn:Ep; [reflexivity|]. destruct (proj2 (Ne c Hc)); [rewrite Ep; discriminate|exact Hw]. }
  assert (Ty : forall c, PromModel.type_and_name alnum cfg (M c) = exported alnum cfg c) by (intros c; apply type_of).
  split. { intros c Hc Hx. unfold shown. destruct (pts c); [reflexivity|]. unfold famof. rewrite Ty, Hx. reflexivity. }
  split.
  { intros c t name Hc Hw Hx. destruct (PromModel.find_fam name s') as [[t' help]|] eqn:F.
    2: { destruct (known_after alnum cfg _ s (M c) (To c Hc Hw) t name); [rewrite Ty; exact Hx|exact F]. }
    exists t', help. split; [reflexivity|].
    assert (Es : shown c = if PromModel.mtype_eqb t' t then match PromModel.add_metric show name help (E c) (OtlpModel.me_data (M c)) with Some fs => fs | None => [] end else []).
    { unfold shown. destruct (pts c) as [|q qs] eqn:Ep; [destruct (proj1 (Ne c Hc) Hw Ep)|]. unfold famof. rewrite Ty, Hx, F. reflexivity. }
    split.
    { intros Hd. rewrite Es. destruct (PromModel.mtype_eqb t' t) eqn:Em; [|reflexivity]. apply PromProps.mtype_eqb_spec in Em. contradiction. }
    intros -> Hfew. assert (Em : PromModel.mtype_eqb t t = true) by (destruct t; reflexivity). rewrite Em in Es.
    destruct (PromModel.add_metric show name help (E c) (OtlpModel.me_data (M c))) as [l|] eqn:Ea; [|destruct (stream_fine val show c (pref r) (start c) (time c) (pts c) (Sh c Hc) _ _ _ Ea)]. rewrite Es.
    destruct (C151_within_limit _ _ _ _ _ _ _ _ _ _ _ _ _ (Acc c Hc)) as (W1 & W2 & W3); [exact Hfew|].
    exists (map fst (pts c)), (E c). split.
    { unfold PromScrapeProps.common_labels, E, scope_extra. destruct (PromModel.disable_scope_info cfg); [reflexivity|].
      exists (PromModel.scope_name_labels (w_scope val (scope_of c))). eexists. split; [unfold PromProps.scope_labels, PromModel.scope_name_labels; destruct (KvModel.sc_version (w_scope val (scope_of c))); reflexivity|].
      split; [reflexivity|]. f_equal. unfold rl, PromModel.select. destruct (PromModel.selector cfg) as [[keys|]|]; [reflexivity| |]; clear; generalize (OtlpModel.re_attrs res) as ra; intros ra.
      - f_equal. induction ra as [|x l IHr]; [reflexivity|]. cbn. f_equal. exact IHr.
      - induction ra; [reflexivity|exact IHra]. }
    rewrite map_map. split; [exact W1|].
    assert (Oc : forall a, In a (map (fun x => canonical (fst x)) (pts c)) <-> occurs canonical c (window c) a).
    { intros a. unfold occurs. rewrite (W2 a). rewrite in_map_iff. split; intros (q & Q1 & Q2); exists q; auto. }
    split; [exact Oc|].
    eapply (stream_sampled pp fsort Hpp Hfs val ln show alnum cfg c (pref r) (start c) (time c) (pts c) (with_attrs (attrs_eq_dec veq) canonical c (window c))); [| |exact Hx|exact Ea].
    - intros q Hq. apply (W3 q Hq).
    - intros q Hq. split; [|split].
      + apply Forall_forall. intros v Hv. apply in_map_iff in Hv. destruct Hv as (x & <- & Hv). apply filter_In in Hv. apply Wt, Hv.
      + assert (Ho : occurs canonical c (window c) (canonical (fst q))) by (apply Oc, in_map_iff; exists q; auto). destruct Ho as (x & X1 & X2). intros E0. apply map_eq_nil in E0.
        assert (I : In x []); [|destruct I]. rewrite <- E0. apply filter_In. split; [exact X1|]. destruct (attrs_eq_dec veq (canonical (kept c (fst x))) (canonical (fst q))); [reflexivity|contradiction].
      + unfold with_attrs. rewrite map_length. specialize (Hlen c Hc). pose proof (filter_at_most (fun x => if attrs_eq_dec veq (canonical (kept c (fst x))) (canonical (fst q)) then true else false) (window c)). lia. }
  split; [intros name v; apply PromProps.registers_keeps|].
  intros name t help F. destruct (where_from alnum cfg _ s name t help F) as [G|(_ & m & M1 & M2 & M3)]; [left; exact G|]. right. destruct (From m M1) as (c & Hc & Hw & ->). exists c.
  split; [exact Hc|]. split; [exact Hw|]. rewrite Ty in M2. split; [exact M2|exact M3].
Qed.
Print Assumptions C175_scraped.

(** The program of C165's example, scraped by a reader with cumulative temporality: the
    counter's samples, the cumulative buckets, the gauge; the exponential histogram is left out. *)
Section example.
Open Scope string_scope.
Notation at1 k v := ((of_string k : list N, v%Z) : kv Z).
Definition pref2 : nat -> temporality := fun _ => Cumulative.
Definition cfg2 : PromModel.config := PromModel.mk_cfg false false false false None None.
Definition show2 (v : KvModel.value) : str := match v with KvModel.VI64 z => [48 + Z.to_N z]%N | KvModel.VString s => s | _ => [] end.
Inductive scraped := ScrapedCounter (z : Z) | ScrapedGauge (z : Z) | ScrapedHist (sum : Z) (count : N) (buckets : list (Z * N)).
Definition scraped_of (f : PromModel.family) : str * PromModel.mtype * list (str * str) * scraped :=
  (PromModel.f_name f, PromModel.f_type f, PromModel.f_labels f,
   match PromModel.f_value f with
   | PromModel.FCounter x => ScrapedCounter (f64_bits x)
   | PromModel.FGauge x => ScrapedGauge (f64_bits x)
   | PromModel.FHist s n bs => ScrapedHist (f64_bits s) n (map (fun b => (f64_bits (fst b), snd b)) bs)
   end).
Definition wrun := erun kvz_scope_dec (attrs_eq_dec Z.eq_dec) [v1; v2] 1%Z isort (fun m => seq 0 (length m)) (nodup kvz_scope_dec)
  (w_create (fun l => l) f64_MIN f64_MAX) (w_update pp_linear ln1) w_accepts w_sub pref2 wres sc1 2 wevs.
Definition wlast := snd (estep kvz_scope_dec (attrs_eq_dec Z.eq_dec) [v1; v2] 1%Z isort (fun m => seq 0 (length m)) (nodup kvz_scope_dec)
  (w_create (fun l => l) f64_MIN f64_MAX) (w_update pp_linear ln1) w_accepts w_sub pref2 wres sc1 wrun (wtick 20 (PipelineModel.Collect 0 wobs))).
Definition label k v : str * str := (of_string k, of_string v).
Notation bits z := (f64_bits (f64_of_Z z)).
Example C175_nonvacuous :
  match wlast with
  | Some rm => option_map (fun r => map scraped_of (fst r)) (PromModel.collect is_alnum show2 cfg2 (OtlpModel.re_attrs (rm_resource rm)) (collected wval rm) [])
  | None => None
  end = Some
    [(of_string "target_info", PromModel.GAUGE, [label "service_name" "s"], ScrapedGauge (bits 1));
     (of_string "total_total", PromModel.COUNTER, [label "k" "1"; label "otel_scope_name" "lib"], ScrapedCounter (bits 17));
     (of_string "total_total", PromModel.COUNTER, [label "k" "2"; label "otel_scope_name" "lib"], ScrapedCounter (bits 1));
     (of_string "h_milliseconds", PromModel.HISTOGRAM, [label "x" "1"; label "otel_scope_name" "lib"],
       ScrapedHist (bits 17) 2 [(bits 0, 0%N); (bits 5, 1%N); (bits 10, 1%N)]);
     (of_string "g", PromModel.GAUGE, [label "x" "1"; label "y" "2"; label "otel_scope_name" "lib"], ScrapedGauge (bits (-6)))] /\
  cut_at 0 (map ev_event (firstn 6 wevs)) (map ev_event (skipn 6 wevs)) /\
  calls_typed wval [] (map ev_event wevs ++ [PipelineModel.Collect 0 wobs]) /\
  map (exported is_alnum cfg2) (first_requests kvz_scope_dec [] (requests [v1; v2] (map ev_event wevs))) =
    [Some (PromModel.COUNTER, of_string "total_total"); Some (PromModel.HISTOGRAM, of_string "h_milliseconds"); Some (PromModel.GAUGE, of_string "g"); None].
Proof. split; [vm_compute; reflexivity|]. split; [apply C165_nonvacuous|]. split; [apply C165_nonvacuous|]. vm_compute. reflexivity. Qed.

(** ** C176: a scrape shows all that was measured *)
(** A program whose only instrument is made an exponential histogram by a view: it is
    measured, and a scrape succeeds and is empty. *)
Definition only_expo := [wtick 1 (Create expo1); wtick 2 (Measure 0 ([at1 "x" 1], NF (f64_of_Z 5)))].
Definition quiet_cfg : PromModel.config := PromModel.mk_cfg false false false true None None.
Theorem C176_all_shown_refuted : exists evs c rm s', Forall (coherent [v1; v2]) (creations (map ev_event evs)) /\
  first_requests kvz_scope_dec [] (requests [v1; v2] (map ev_event evs)) = [c] /\
  map (fun x => f64_bits (as_float (snd x))) (window_of kvz_scope_dec [v1; v2] w_accepts Cumulative [] (map ev_event evs ++ [PipelineModel.Collect 0 wobs]) c) = [f64_bits (f64_of_Z 5)] /\
  snd (estep kvz_scope_dec (attrs_eq_dec Z.eq_dec) [v1; v2] 1%Z isort (fun m => seq 0 (length m)) (nodup kvz_scope_dec)
    (w_create (fun l => l) f64_MIN f64_MAX) (w_update pp_linear ln1) w_accepts w_sub pref2 wres sc1
    (erun kvz_scope_dec (attrs_eq_dec Z.eq_dec) [v1; v2] 1%Z isort (fun m => seq 0 (length m)) (nodup kvz_scope_dec)
      (w_create (fun l => l) f64_MIN f64_MAX) (w_update pp_linear ln1) w_accepts w_sub pref2 wres sc1 1 evs) (wtick 20 (PipelineModel.Collect 0 wobs))) = Some rm /\
  PromModel.collect is_alnum show2 quiet_cfg (OtlpModel.re_attrs (rm_resource rm)) (collected wval rm) [] = Some ([], s').
Proof.
  exists only_expo. eexists _, _, _. split.
  { constructor; [|constructor]. intros s1 s2 H1 H2 _. vm_compute in H1, H2. destruct H1 as [<-|[]], H2 as [<-|[]]. auto. }
  split; [vm_compute; reflexivity|]. split; [vm_compute; reflexivity|]. split; [reflexivity|]. vm_compute. reflexivity.
Qed.
End example.
Print Assumptions C176_all_shown_refuted.
