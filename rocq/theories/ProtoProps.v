(** C158: a receiver that knows only the Protocol Buffers wire format and the published
    OTLP definitions reads from an exporter's bytes the very messages that were to be sent
    (C60-C62 say what these contain). *)
From Coq Require Import String List NArith ZArith Bool Lia Permutation.
From Coq Require Import ZifyBool ZifyNat ZifyN.
From Verif Require Import Str StrProofs F64 TraceModel SpanModel LogModel AttrModel KvModel OtlpModel ProtoModel ProtoSpec ProtoProofs ProviderModel BatchModel BatchProofs BatchProps OtlpProps WireProps.
Import ListNotations.
Local Open Scope N_scope.

(** Every request with numbers and strings within their types is read back. *)
Theorem C158_traces_read_back : forall rs, Forall (resourced_in_range span_in_range) rs ->
  read_request read_span (request_bytes span_bytes rs) = Some rs.
Proof. intros rs H. exact (request_ok _ _ _ span_ok rs H). Qed.
Print Assumptions C158_traces_read_back.
Theorem C158_logs_read_back : forall rs, Forall (resourced_in_range log_in_range) rs ->
  read_request read_log (request_bytes log_bytes rs) = Some rs.
Proof. intros rs H. exact (request_ok _ _ _ log_ok rs H). Qed.
Print Assumptions C158_logs_read_back.
Theorem C158_metrics_read_back : forall rs, Forall (resourced_in_range metric_in_range) rs ->
  read_request read_metric (request_bytes metric_bytes rs) = Some rs.
Proof. intros rs H. exact (request_ok _ _ _ metric_ok rs H). Qed.
Print Assumptions C158_metrics_read_back.
(** Values, at any depth. *)
Theorem C158_values_read_back : forall v, any_in_range v -> read_any (any_bytes v) = Some v.
Proof. exact any_ok. Qed.
Print Assumptions C158_values_read_back.

(** The wire format for itself: any fields are parsed back, whatever they hold. *)
Theorem C158_fields_parsed_back : forall fs, Forall (fun f => match snd f with I64 n => n < 2 ^ 64 | I32 n => n < 2 ^ 32 | _ => True end) fs ->
  parse (length (ser fs)) (ser fs) = Some fs.
Proof. intros fs H. apply parse_ok; [exact H|reflexivity]. Qed.
Print Assumptions C158_fields_parsed_back.

(** * What the SDK hands over is in range
    Rust's types say: strings are Unicode scalar values, integers fit. *)
Definition typed_value (v : value) : Prop :=
  match v with
  | VI64 z => i64 z
  | VString s => text s
  | VArray (AI64 l) => Forall i64 l
  | VArray (AString l) => Forall text l
  | _ => True
  end.
Definition typed_attr (kv : attr) : Prop := text (fst kv) /\ typed_value (snd kv).
Definition typed_opt (o : option str) : Prop := match o with Some s => text s | None => True end.
Definition typed_state (t : tstate) : Prop := match t with Some l => Forall (fun e => text (fst e) /\ text (snd e)) l | None => True end.
Definition typed_event (e : @event attr) : Prop := text (ev_name e) /\ Forall typed_attr (ev_attrs e) /\ u32 (ev_dropped e).
Definition typed_link (l : @link attr) : Prop :=
  typed_state (TraceModel.sc_state (ln_sc l)) /\ sc_flags (ln_sc l) < 256 /\ Forall typed_attr (ln_attrs l) /\ u32 (ln_dropped l).
Definition typed_status (s : status) : Prop := match s with Error d => text d | _ => True end.
Definition typed_scope (s : scope) : Prop := text (sc_name s) /\ typed_opt (sc_version s) /\ typed_opt (sc_url s) /\ Forall typed_attr (sc_attrs s).
Definition typed_resource (r : resource) : Prop := Forall typed_attr (re_attrs r) /\ typed_opt (re_url r).
Definition typed_span (s : sdata) : Prop :=
  let d := d_data s in
  typed_state (TraceModel.sc_state (d_ctx s)) /\ sc_flags (d_ctx s) < 256 /\ text (sd_name d) /\
  Forall typed_attr (sd_attrs d) /\ u32 (sd_attrs_dropped d) /\ Forall typed_event (sd_events d) /\ u32 (sd_events_dropped d) /\
  Forall typed_link (sd_links d) /\ u32 (sd_links_dropped d) /\ typed_status (sd_status d) /\ typed_scope (d_scope s).

Lemma range_value v : typed_value v -> any_in_range (any_of_value v).
Proof.
  intros H. destruct v as [b|z|f|s|[l|l|l|l]]; try exact H; try exact I; cbn [any_of_value]; apply range_array, Forall_map;
    first [apply Forall_forall; intros; exact I | exact H].
Qed.
Lemma range_attrs l : Forall typed_attr l -> kvs_in_range (attrs_msg l).
Proof.
  intros H. unfold kvs_in_range, attrs_msg. apply Forall_map. eapply Forall_impl; [|exact H].
  intros [k v] [Hk Hv]. split; [exact Hk|]. apply range_value, Hv.
Qed.
Lemma text_app a b : text a -> text b -> text (a ++ b).
Proof. unfold text, wf_str. intros H1 H2. apply forallb_forall. rewrite forallb_forall in H1, H2. intros x Hx. apply in_app_or in Hx. destruct Hx; auto. Qed.
Lemma text_join sep l : text sep -> Forall text l -> text (join sep l).
Proof.
  intros Hs H. induction H as [|x l Hx Hl IH]; [reflexivity|]. destruct l as [|y l]; [exact Hx|].
  change (text (x ++ sep ++ join sep (y :: l))). apply text_app; [exact Hx|]. apply text_app; [exact Hs|exact IH].
Qed.
Lemma text_state t : typed_state t -> text (ts_header t).
Proof.
  destruct t as [l|]; [|reflexivity]. intros H. unfold ts_header, ts_header_delimited. apply text_join; [reflexivity|].
  apply Forall_map. eapply Forall_impl; [|exact H]. intros e [H1 H2]. apply text_app; [exact H1|]. apply text_app; [reflexivity|exact H2].
Qed.
Lemma time_nanos t : time (to_nanos t).
Proof. unfold to_nanos, time. destruct (Z.ltb_spec t 0); [lia|]. apply Z.mod_pos_bound. lia. Qed.
Lemma text_opt o : typed_opt o -> text (or_empty o).
Proof. destruct o; [intros H; exact H|reflexivity]. Qed.
Lemma byte_u32 n : n < 256 -> u32 n.
Proof. unfold u32. lia. Qed.

Lemma range_event e : typed_event e -> event_in_range (event_msg e).
Proof. intros (H1 & H2 & H3). split; [apply time_nanos|]. split; [exact H1|]. split; [apply range_attrs, H2|exact H3]. Qed.
Lemma range_link l : typed_link l -> link_in_range (link_msg l).
Proof. intros (H1 & H2 & H3 & H4). split; [apply text_state, H1|]. split; [apply range_attrs, H3|]. split; [exact H4|apply byte_u32, H2]. Qed.
Lemma range_span s : typed_span s -> span_in_range (span_msg s).
Proof.
  intros (H1 & H2 & H3 & H4 & H5 & H6 & H7 & H8 & H9 & H10 & _). unfold span_in_range, span_msg.
  cbn [p_state p_flags p_name p_kind p_start p_end p_attrs p_attrs_dropped p_events p_events_dropped p_links p_links_dropped p_code p_message].
  split; [apply text_state, H1|]. split; [apply byte_u32, H2|]. split; [exact H3|].
  split. { unfold kind_msg, i32. destruct (sd_kind (d_data s)) as [|[[|[]|]|[|[]|]|]]; lia. }
  split; [apply time_nanos|]. split; [apply time_nanos|]. split; [apply range_attrs, H4|]. split; [exact H5|].
  split. { apply Forall_map. eapply Forall_impl; [|exact H6]. apply range_event. }
  split; [exact H7|].
  split. { apply Forall_map. eapply Forall_impl; [|exact H8]. apply range_link. }
  split; [exact H9|]. split; [destruct (sd_status (d_data s)); unfold i32; cbn; lia|].
  destruct (sd_status (d_data s)); [reflexivity|exact H10|reflexivity].
Qed.
Lemma range_scope s : typed_scope s -> scope_in_range (scope_msg s None).
Proof. intros (H1 & H2 & H3 & H4). split; [exact H1|]. split; [apply text_opt, H2|apply range_attrs, H4]. Qed.

(** So every batch of spans arrives as converted. *)
Theorem C158_spans_arrive : forall same order spans r, permutes order -> Forall typed_span spans -> typed_resource r ->
  read_request read_span (request_bytes span_bytes [spans_msg same order spans r]) = Some [spans_msg same order spans r].
Proof.
  intros same order spans r Ho Hs [Hr1 Hr2]. apply C158_traces_read_back. constructor; [|constructor].
  split; [apply range_attrs, Hr1|]. split; [apply text_opt, Hr2|]. unfold spans_msg. cbn [r_groups]. apply Forall_map, Forall_forall.
  intros [k l] Hin. apply (Permutation_in _ (Ho _)) in Hin. pose proof (group_all_ok same d_scope spans) as Hok. rewrite Forall_forall in Hok.
  destruct (Hok _ Hin) as (x & rest & E1 & E2 & E3 & _). cbn [fst snd g_scope g_url g_items] in *. subst l k. rewrite Forall_forall in Hs.
  split. { apply range_scope. apply Hs. eapply sub_in; [exact E3|left; reflexivity]. }
  split; [apply text_opt, Hr2|]. apply Forall_map, Forall_forall. intros y Hy. apply range_span, Hs. eapply sub_in; [exact E3|exact Hy].
Qed.
Print Assumptions C158_spans_arrive.

(** Together with the batch processor (C150): reading the bodies of all its requests gives
    the accepted spans that are no longer waiting, each once. *)
Theorem C158_batches_arrive : forall Q M acts s same order r data, size_ok Q -> (forall b, permutes (order b)) ->
  typed_resource r -> brun false Q M b_init acts = Some s ->
  let n := List.length (b_emits s) in ids_differ n data -> ids_in_range n data -> (forall i, (i < n)%nat -> typed_span (data i)) ->
  let bodies := map (fun m => request_bytes span_bytes [m]) (trace_requests same order r data (b_exported s)) in
  exists read, map (read_request read_span) bodies = map Some read /\
  let spans := concat (map carried (concat read)) in
  NoDup spans /\
  (forall i, fate s i OAccepted -> In (span_msg (data i)) spans \/ In i (wbuf (b_worker s) ++ b_queue s)) /\
  (forall m, In m spans -> exists i, m = span_msg (data i) /\ In i (b_accepted s)).
Proof.
  intros Q M acts s same order r data HQ Ho Hr Hs n Hd Hi Ht bodies.
  destruct (C150_spans_on_the_wire Q M acts s same order r data HQ Ho Hs Hd Hi) as (H1 & H2 & _ & _ & _ & H3 & _).
  exists (map (fun m => [m]) (trace_requests same order r data (b_exported s))). split.
  - unfold bodies. rewrite !map_map. apply map_ext_in. intros m Hm. unfold trace_requests in Hm.
    apply in_map_iff in Hm. destruct Hm as (b & <- & Hb). apply C158_spans_arrive; [apply Ho| |exact Hr].
    apply Forall_map, Forall_forall. intros i X. apply Ht.
    destruct (C32_C36_order false Q M acts s HQ Hs) as (Fifo & _ & Acc & _).
    destruct (Acc i) as (e & He & _); [|apply nth_error_Some; congruence].
    rewrite Fifo. apply in_or_app. left. unfold BatchProps.exported. apply in_concat. eauto.
  - assert (E : forall l : list (presource pspan), concat (map (fun m => [m]) l) = l).
    { intros l. induction l as [|m l IH]; [reflexivity|]. cbn [map concat List.app]. rewrite IH. reflexivity. }
    cbv zeta. rewrite E. auto.
Qed.
Print Assumptions C158_batches_arrive.

(** ** Logs *)
Fixpoint typed_lany (v : lany) : Prop :=
  match v with
  | LInt z => i64 z
  | LString s => text s
  | LList l => (fix all (l : list lany) := match l with [] => True | v :: l => typed_lany v /\ all l end) l
  | LMap l => (fix all (l : list (str * lany)) := match l with [] => True | (k, v) :: l => (text k /\ typed_lany v) /\ all l end) l
  | _ => True
  end.
Definition typed_log (x : lrec * scope) : Prop :=
  let r := fst x in
  typed_opt (lr_event r) /\ typed_opt (lr_target r) /\ lr_observed r <> None /\ typed_opt (lr_sevtext r) /\
  match lr_sev r with Some n => n < 25 | None => True end /\
  match lr_body r with Some b => typed_lany b | None => True end /\
  Forall (fun kv => text (fst kv) /\ typed_lany (snd kv)) (attributes r) /\
  match lr_trace r with Some t => match tc_flags t with Some f => f < 256 | None => True end | None => True end /\
  typed_scope (snd x).

Lemma range_lany : forall v, typed_lany v -> any_in_range (any_of_log v).
Proof.
  fix IH 1. intros [z|f|s|b|b|l|l] H; try exact H; try exact I; cbn [any_of_log].
  - apply range_array, Forall_map. cbn [typed_lany] in H. induction l as [|v l IHl]; constructor; [apply IH, H|apply IHl, H].
  - apply range_kvlist. unfold kvs_in_range. apply Forall_map. cbn [typed_lany] in H.
    induction l as [|[k v] l IHl]; constructor; [|apply IHl, H]. cbn [fst snd]. destruct H as [[Hk Hv] _]. split; [exact Hk|apply IH, Hv].
Qed.
Lemma range_log x m : typed_log x -> log_msg (fst x) = Some m -> log_in_range m.
Proof.
  intros (H1 & H2 & H3 & H4 & H5 & H6 & H7 & H8 & H9) E. unfold log_msg in E. destruct (lr_observed (fst x)) as [o|]; [|contradiction].
  injection E as <-. unfold log_in_range. cbn [q_time q_observed q_attrs q_event q_sev q_sevtext q_body q_flags].
  split. { destruct (lr_time (fst x)); [apply time_nanos|unfold time; cbn; lia]. }
  split; [apply time_nanos|].
  split. { unfold kvs_in_range. apply Forall_map. eapply Forall_impl; [|exact H7]. intros kv [Hk Hv]. split; [exact Hk|apply range_lany, Hv]. }
  split; [apply text_opt, H1|].
  split. { unfold i32. destruct (lr_sev (fst x)); cbn [omap]; lia. }
  split; [apply text_opt, H4|].
  split. { destruct (lr_body (fst x)); [apply range_lany, H6|exact I]. }
  unfold u32. destruct (lr_trace (fst x)) as [t|]; cbn [omap]; [|lia]. destruct (tc_flags t); cbn [omap id]; unfold id; lia.
Qed.
Theorem C158_logs_arrive : forall order logs r m, permutes order -> Forall typed_log logs -> typed_resource r ->
  logs_msg order logs r = Some m ->
  read_request read_log (request_bytes log_bytes [m]) = Some [m].
Proof.
  intros order logs r m Ho Hl [Hr1 Hr2] Hm. apply C158_logs_read_back. constructor; [|constructor].
  unfold logs_msg in Hm. destruct (all_some (map (log_group_msg r) _)) as [ps|] eqn:E; [|discriminate]. injection Hm as <-.
  split; [apply range_attrs, Hr1|]. split; [apply text_opt, Hr2|]. cbn [r_groups]. apply all_some_map in E.
  assert (Hg : Forall (fun g : str * list (lrec * scope) => text (fst g) /\ Forall typed_log (snd g)) (order (group str_eqb log_key logs))).
  { apply Forall_forall. intros [k l] Hin. apply (Permutation_in _ (Ho _)) in Hin. pose proof (group_all_ok str_eqb log_key logs) as Hok. rewrite Forall_forall in Hok.
    destruct (Hok _ Hin) as (x & rest & E1 & E2 & E3 & _). cbn [fst snd] in *. subst l k. rewrite Forall_forall in Hl.
    assert (Hx : typed_log x) by (apply Hl; eapply sub_in; [exact E3|left; reflexivity]). split.
    - unfold log_key. destruct Hx as (_ & Ht & _ & _ & _ & _ & _ & _ & Hs & _). destruct (lr_target (fst x)); [exact Ht|exact Hs].
    - apply Forall_forall. intros y Hy. apply Hl. eapply sub_in; [exact E3|exact Hy]. }
  revert Hg. generalize dependent ps. induction (order (group str_eqb log_key logs)) as [|g gs IH]; intros ps E Hg; inversion E as [|? p ? ps' Hp Hps]; subst; constructor.
  - inversion Hg as [|? ? [Hk Hgl] _]; subst. unfold log_group_msg in Hp. destruct (snd g) as [|first rest] eqn:Eg; [discriminate|].
    destruct (all_some _) as [ms|] eqn:Em; [|discriminate]. injection Hp as <-. cbn [g_scope g_url g_items scope_msg].
    split. { split; [exact Hk|]. split; [reflexivity|constructor]. }
    split; [apply text_opt, Hr2|]. apply all_some_map in Em. clear -Em Hgl. induction Em as [|x m l ms Hx Hl IH]; constructor.
    + inversion Hgl; subst. eapply range_log; eassumption.
    + apply IH. inversion Hgl; assumption.
  - apply IH; [exact Hps|]. inversion Hg; assumption.
Qed.
Print Assumptions C158_logs_arrive.

(** Log batches likewise: the bodies read back to the records of the exported ones. *)
Theorem C158_log_batches_arrive : forall Q M acts s order r data, size_ok Q -> (forall b, permutes (order b)) ->
  (forall i, typed_log (data i)) -> typed_resource r -> brun true Q M b_init acts = Some s ->
  exists bodies read msgs,
    map (option_map (fun m => request_bytes log_bytes [m])) (log_requests order r data (b_exported s)) = map Some bodies /\
    map (read_request read_log) bodies = map Some read /\
    Permutation (concat (map carried (concat read))) msgs /\
    Forall2 (fun i p => log_msg (fst (data i)) = Some p) (exported s) msgs /\ NoDup (exported s) /\
    (forall i, fate s i OAccepted -> In i (exported s) \/ In i (wbuf (b_worker s) ++ b_queue s)).
Proof.
  intros Q M acts s order r data HQ Ho Ht Hr Hs.
  destruct (C150_logs_on_the_wire Q M acts s order r data HQ Ho (fun i => proj1 (proj2 (proj2 (Ht i)))) Hs) as (reqs & msgs & E & F2 & Pm & Nd & Fa & _).
  exists (map (fun m => request_bytes log_bytes [m]) reqs), (map (fun m => [m]) reqs), msgs.
  split. { rewrite E, !map_map. reflexivity. }
  split.
  - rewrite !map_map. apply map_ext_in. intros m Hm. apply (in_map (@Some _)) in Hm. rewrite <- E in Hm. unfold log_requests in Hm.
    apply in_map_iff in Hm. destruct Hm as (b & Hb & _). refine (C158_logs_arrive _ _ r m (Ho b) _ Hr Hb).
    apply Forall_map, Forall_forall. intros i _. apply Ht.
  - assert (El : forall l : list (presource plog), concat (map (fun m => [m]) l) = l).
    { intros l. induction l as [|m l IH]; [reflexivity|]. cbn [map concat List.app]. rewrite IH. reflexivity. }
    rewrite El. auto.
Qed.
Print Assumptions C158_log_batches_arrive.

(** ** Metrics *)
Section typed_metrics.
Context {T : Type} (ok : T -> Prop).
Definition typed_exemplar (e : exemplar T) : Prop := Forall typed_attr (x_attrs e) /\ ok (x_value e).
Definition typed_npoint (p : npoint T) : Prop := Forall typed_attr (n_attrs p) /\ ok (n_value p) /\ Forall typed_exemplar (n_ex p).
Definition typed_hpoint (p : hpoint T) : Prop :=
  Forall typed_attr (h_attrs p) /\ u64 (h_count p) /\ Forall u64 (h_buckets p) /\ Forall typed_exemplar (h_ex p).
(** The SDK's zero threshold is always 0.0 (exponential_histogram.rs:442, 502). *)
Definition typed_epoint (p : epoint T) : Prop :=
  Forall typed_attr (e_attrs p) /\ u64 (e_count p) /\ i32 (e_scale p) /\ u64 (e_zero p) /\
  (i32 (fst (e_pos p)) /\ Forall u64 (snd (e_pos p))) /\ (i32 (fst (e_neg p)) /\ Forall u64 (snd (e_neg p))) /\
  e_threshold p = f64_of_Z 0 /\ Forall typed_exemplar (e_ex p).
Definition typed_mdata (d : mdata T) : Prop :=
  match d with
  | MGauge ps _ _ => Forall typed_npoint ps
  | MSum ps _ _ _ _ => Forall typed_npoint ps
  | MHist ps _ _ _ => Forall typed_hpoint ps
  | MExpo ps _ _ _ => Forall typed_epoint ps
  end.
Context (num : T -> pnum) (flt : T -> f64) (Hnum : forall x, ok x -> num_in_range (num x)).
Lemma range_exemplar e : typed_exemplar e -> exemplar_in_range (exemplar_msg num e).
Proof using Hnum. intros [H1 H2]. split; [apply range_attrs, H1|]. split; [apply time_nanos|apply Hnum, H2]. Qed.
Lemma range_exemplars l : Forall typed_exemplar l -> Forall exemplar_in_range (map (exemplar_msg num) l).
Proof using Hnum. intros H. apply Forall_map. eapply Forall_impl; [|exact H]. apply range_exemplar. Qed.
Lemma range_npoint s t p : time s -> time t -> typed_npoint p -> npoint_in_range (npoint_msg num s t p).
Proof using Hnum.
  intros Hs Ht (H1 & H2 & H3). split; [apply range_attrs, H1|]. split; [exact Hs|]. split; [exact Ht|]. split; [apply range_exemplars, H3|apply Hnum, H2].
Qed.
Lemma range_temporality t : i32 (temporality_msg t).
Proof. unfold i32. destruct t; cbn; lia. Qed.
Lemma range_data d : typed_mdata d -> data_in_range (data_msg num flt d).
Proof using Hnum.
  intros H. destruct d as [ps s t|ps s t tm mono|ps s t tm|ps s t tm]; cbn [data_msg data_in_range]; try (split; [|apply range_temporality]); apply Forall_map; (eapply Forall_impl; [|exact H]); intros p Hp.
  - apply range_npoint; [destruct s; [apply time_nanos|unfold time; cbn; lia]|apply time_nanos|exact Hp].
  - apply range_npoint; [apply time_nanos|apply time_nanos|exact Hp].
  - destruct Hp as (H1 & H2 & H3 & H4). split; [apply range_attrs, H1|]. split; [apply time_nanos|]. split; [apply time_nanos|].
    split; [exact H2|]. split; [exact H3|apply range_exemplars, H4].
  - destruct Hp as (H1 & H2 & H3 & H4 & [H5 H6] & [H7 H8] & H9 & H10). split; [apply range_attrs, H1|]. split; [apply time_nanos|]. split; [apply time_nanos|].
    split; [exact H2|]. split; [exact H3|]. split; [exact H4|]. split; [exact H5|]. split; [exact H6|]. split; [exact H7|]. split; [exact H8|].
    split; [apply range_exemplars, H10|]. intros _. exact H9.
Qed.
End typed_metrics.
Definition typed_metric (m : metric) : Prop :=
  text (me_name m) /\ text (me_desc m) /\ text (me_unit m) /\
  match me_data m with
  | DF64 d => typed_mdata (fun _ => True) d
  | DU64 d => typed_mdata (fun z => (0 <= z < 2 ^ 64)%Z) d
  | DI64 d => typed_mdata i64 d
  end.
Lemma range_metric m : typed_metric m -> metric_in_range (metric_msg m).
Proof.
  intros (H1 & H2 & H3 & H4). split; [exact H1|]. split; [exact H2|]. split; [exact H3|]. cbn [metric_msg pm_data].
  destruct (me_data m) as [d|d|d]; cbn [amdata_msg].
  - apply (range_data (fun _ => True)); [intros; exact I|exact H4].
  - apply (range_data (fun z => (0 <= z < 2 ^ 64)%Z)); [|exact H4]. intros z Hz. unfold num_of_u64, num_in_range, i64. destruct (Z.ltb_spec z (2 ^ 63)); lia.
  - apply (range_data i64); [|exact H4]. intros z Hz. exact Hz.
Qed.
Theorem C158_metrics_arrive : forall r sms, typed_resource r -> Forall (fun sm => typed_scope (fst sm) /\ Forall typed_metric (snd sm)) sms ->
  read_request read_metric (request_bytes metric_bytes [metrics_msg r sms]) = Some [metrics_msg r sms].
Proof.
  intros r sms [Hr1 Hr2] H. apply C158_metrics_read_back. constructor; [|constructor].
  split; [apply range_attrs, Hr1|]. split; [apply text_opt, Hr2|]. unfold metrics_msg. cbn [r_groups]. apply Forall_map.
  eapply Forall_impl; [|exact H]. intros sm [Hs Hm]. cbn [g_scope g_url g_items]. split; [apply range_scope, Hs|].
  split; [apply text_opt, Hs|]. apply Forall_map. eapply Forall_impl; [|exact Hm]. apply range_metric.
Qed.
Print Assumptions C158_metrics_arrive.

(** Cases. *)
Definition ex_attrs : list attr := [(of_string "k", VI64 (-3)%Z); (of_string "l", VArray (AString [of_string "x"; []]))].
Example C158_value_bytes : any_bytes (PArray [PInt (-1)%Z; PString []]) =
  [42; 17; 10; 11; 24; 255; 255; 255; 255; 255; 255; 255; 255; 255; 1; 10; 2; 10; 0].
Proof. vm_compute. reflexivity. Qed.
Definition ex_scope : scope := mk_scope (of_string "lib") (Some (of_string "1")) None ex_attrs.
Definition ex_span158 : sdata :=
  mk_sdata (mk_sc 300 7 1 false (Some [(of_string "a", of_string "b")]))
    (mk_data 5 1 (of_string "op") 1000%Z 300000%Z ex_attrs 0 [mk_event (of_string "e") (-4)%Z ex_attrs 2] 1
       [mk_link (mk_sc 1 2 1 true None) [] 0] 0 (Error (of_string "bad"))) ex_scope.
Example C158_nonvacuous : typed_span ex_span158 /\ typed_resource (mk_resource ex_attrs (Some (of_string "u"))) /\
  read_request read_span (request_bytes span_bytes [spans_msg (fun _ _ => true) (fun l => l) [ex_span158; ex_span158] (mk_resource ex_attrs None)]) <> None /\
  length (request_bytes span_bytes [spans_msg (fun _ _ => true) (fun l => l) [ex_span158; ex_span158] (mk_resource ex_attrs None)]) = 492%nat.
Proof.
  split; [|split; [|split]].
  - assert (Forall typed_attr ex_attrs) by (repeat constructor; unfold i64; lia).
    unfold typed_span, typed_scope, typed_event, typed_link, u32. cbn.
    repeat match goal with |- _ /\ _ => split | |- Forall typed_attr ex_attrs => assumption | |- Forall _ [] => constructor | |- Forall _ (_ :: _) => constructor end; try reflexivity; try exact I; try assumption; constructor.
  - split; [repeat constructor; unfold i64; lia|reflexivity].
  - vm_compute. discriminate.
  - vm_compute. reflexivity.
Qed.

(** Without the condition on the threshold: -0.0 is not written. *)
Theorem C158_negative_zero_threshold : exists p, pp_threshold p = f64_neg (f64_of_Z 0) /\
  option_map pp_threshold (read_epoint (epoint_bytes p)) = Some (f64_of_Z 0).
Proof.
  exists (mk_pep [] 0%Z 0%Z 0 (f64_of_Z 0) 0%Z 0 (0%Z, []) (0%Z, []) [] None None (f64_neg (f64_of_Z 0))). split; [reflexivity|]. vm_compute. reflexivity.
Qed.
Print Assumptions C158_negative_zero_threshold.
