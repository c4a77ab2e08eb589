(** C177: spans from the calls of the API to what an OTLP receiver reads. *)
From Coq Require Import String List NArith ZArith Bool Lia Permutation.
From Verif Require Import Str StrProofs ContextModel TraceModel TraceProps Carrier SamplerModel SpanModel SpanSpec SpanProofs SpanProps BuilderModel BuilderProps AttrModel AttrProofs KvModel LogModel OtlpModel OtlpProps
  ProviderModel BatchModel BatchProofs BatchProps WireProps ProtoSpec ProtoModel ProtoProps SpanWireSpec.
Import ListNotations.
Local Open Scope N_scope.

(** * The life of a span, split at its first end *)
Lemma life_split {A} (l : list (action A)) start given :
  ((forall a, In a l -> ends a = false) /\ ended_at start given l = None) \/
  exists pre e post, l = pre ++ e :: post /\ (forall a, In a pre -> ends a = false) /\ ends e = true /\ before_end l = ops_of pre /\
    ended_at start given l = Some match e with
                                  | End t => t
                                  | DropSpan now => match given with Some t => if (t =? start)%Z then now else t | None => now end
                                  | _ => 0%Z
                                  end.
Proof.
  induction l as [|a l IH]; [left; split; [intros a []|reflexivity]|].
  destruct a as [o|t|now|].
  2: { right. exists [], (End t), l. repeat split; intros a []. }
  2: { right. exists [], (DropSpan now), l. repeat split; intros a []. }
  all: destruct IH as [[H1 H2]|(pre & e & post & -> & H2 & H3 & H4 & H5)].
  1, 3: left; split; [intros a [<-|Ha]; [reflexivity|apply H1, Ha]|exact H2].
  - right. exists (Op o :: pre), e, post. split; [reflexivity|]. split; [intros a [<-|Ha]; [reflexivity|apply H2, Ha]|]. split; [exact H3|].
    split; [cbn [before_end ops_of flat_map List.app]; f_equal; exact H4|exact H5].
  - right. exists (ProviderShutdown :: pre), e, post. split; [reflexivity|]. split; [intros a [<-|Ha]; [reflexivity|apply H2, Ha]|]. split; [exact H3|]. split; [exact H4|exact H5].
Qed.

(** * What is told of each part *)
Lemma id_told_trace t : t < 2 ^ 128 -> id_told 16 t (trace_id_to_bytes t).
Proof.
  intros H. destruct (C12_trace_id_roundtrip t H) as (H1 & _ & H2 & H3 & _). split; [exact H2|]. split; [exact H3|].
  rewrite <- H1 at 2. unfold trace_id_from_bytes, of_be_bytes. generalize 0 at 1 2. generalize (trace_id_to_bytes t).
  intros l. induction l as [|b l IH]; intros n; [reflexivity|]. cbn [fold_left]. rewrite IH. f_equal. lia.
Qed.
Lemma id_told_span t : t < 2 ^ 64 -> id_told 8 t (span_id_to_bytes t).
Proof.
  intros H. destruct (C12_span_id_roundtrip t H) as (H1 & _ & H2 & H3 & _). split; [exact H2|]. split; [exact H3|].
  rewrite <- H1 at 2. unfold span_id_from_bytes, of_be_bytes. generalize 0 at 1 2. generalize (span_id_to_bytes t).
  intros l. induction l as [|b l IH]; intros n; [reflexivity|]. cbn [fold_left]. rewrite IH. f_equal. lia.
Qed.
Lemma told_once w a b bytes : id_told w a bytes -> id_told w b bytes -> a = b.
Proof. intros (_ & _ & <-) (_ & _ & <-). reflexivity. Qed.
Lemma state_told_header t : state_told t (ts_header t).
Proof.
  destruct t as [l|]; [|reflexivity]. unfold state_told, ts_header, ts_header_delimited.
  induction l as [|[k v] l IH]; [reflexivity|]. destruct l as [|y l]; [reflexivity|].
  assert (E : members ((k, v) :: y :: l) = (k ++ [61] ++ v) ++ [44] ++ members (y :: l)).
  { change (members ((k, v) :: y :: l)) with (k ++ 61 :: v ++ 44 :: members (y :: l)). rewrite <- !app_assoc. reflexivity. }
  rewrite E, <- IH. reflexivity.
Qed.
Lemma time_told_nanos t : time_told t (to_nanos t).
Proof. intros H. unfold to_nanos. destruct (Z.ltb_spec t 0); [lia|]. rewrite Z.mod_small by lia. lia. Qed.
Lemma kind_told_msg k : k < 5 -> kind_told k (kind_msg k).
Proof. intros H. destruct k as [|[[|[]|]|[|[]|]|]]; try reflexivity; lia. Qed.
Lemma status_told_msg s : status_told s (status_code s) (status_message s).
Proof. destruct s; split; reflexivity. Qed.
Lemma conveys_any v : conveys v (any_of_value v).
Proof. destruct v as [b|z|f|s|[l|l|l|l]]; constructor. Qed.
Lemma forall2_map {X Y Z} (R : X -> Y -> Prop) (f : Z -> Y) (g : Z -> X) l : (forall z, In z l -> R (g z) (f z)) -> Forall2 R (map g l) (map f l).
Proof. intros H. induction l as [|z l IH]; [constructor|]. constructor; [apply H; left; reflexivity|]. apply IH. intros; apply H; right; assumption. Qed.
Lemma attrs_told limit l : within limit attr_told l (attrs_msg (keep limit l)) (excess limit l).
Proof.
  split; [|reflexivity]. unfold keep, attrs_msg. rewrite <- (map_id (firstn (N.to_nat limit) l)) at 1. apply forall2_map.
  intros z _. split; [reflexivity|apply conveys_any].
Qed.
Lemma events_told lim l : within (max_events lim) (event_told (max_event_attrs lim)) l
  (map event_msg (map (kept_event lim) (keep (max_events lim) l))) (excess (max_events lim) l).
Proof.
  split; [|reflexivity]. unfold keep. rewrite map_map, <- (map_id (firstn _ l)) at 1. apply forall2_map.
  intros [[n t] a] _. cbn [kept_event]. unfold event_msg, event_told. cbn [ev_name ev_time ev_attrs ev_dropped pe_name pe_time pe_attrs pe_dropped].
  split; [reflexivity|]. split; [apply time_told_nanos|apply attrs_told].
Qed.
Lemma in_keep {X} n (l : list X) x : In x (keep n l) -> In x l.
Proof. unfold keep. intros H. rewrite <- (firstn_skipn (N.to_nat n) l). apply in_or_app. auto. Qed.
Lemma links_told lim l : Forall (fun k => typed_context (fst k) /\ Forall typed_attr (snd k)) l ->
  within (max_links lim) (link_told (max_link_attrs lim)) l (map link_msg (map (kept_link lim) (keep (max_links lim) l))) (excess (max_links lim) l).
Proof.
  intros H. rewrite Forall_forall in H. split; [|reflexivity]. rewrite map_map. change (firstn (N.to_nat (max_links lim)) l) with (keep (max_links lim) l).
  rewrite <- (map_id (keep (max_links lim) l)) at 1. apply forall2_map.
  intros [sc a] Hin. apply in_keep, H in Hin. cbn [fst snd] in Hin. destruct Hin as [(T1 & T2 & T3 & T4) Ha]. cbn [kept_link]. unfold link_msg, link_told.
  cbn [ln_sc ln_attrs ln_dropped pl_trace pl_span pl_state pl_attrs pl_dropped pl_flags].
  split; [apply id_told_trace, T1|]. split; [apply id_told_span, T2|]. split; [apply state_told_header|]. split; [reflexivity|apply attrs_told].
Qed.
Lemma excess_u32 {X} n (l : list X) : ProtoSpec.u32 (excess n l).
Proof. unfold ProtoSpec.u32, excess. apply N.mod_lt. discriminate. Qed.
Lemma keep_forall {X} (P : X -> Prop) n l : Forall P l -> Forall P (keep n l).
Proof. rewrite !Forall_forall. intros H x Hx. apply H. eapply in_keep, Hx. Qed.

(** * One span *)
Lemma started_limits A V l smp gt gs now name (calls : list (bcall A)) (parent : sctx V) :
  cx_suppress parent = false -> sp_limits (b_start_with_context l false smp gt gs now [] (b_build name calls) parent) = l.
Proof.
  intros Hs. unfold b_start_with_context, start_span. rewrite Hs. cbn [orb fold_left]. unfold build_with_context. rewrite Hs.
  destruct (match cx_span parent with Some sc => _ | None => _ end) as [t psc]. destruct (match sb_sampling _ with Some r => r | None => _ end) as [[[] e] st]; try reflexivity.
  all: unfold build_recording_span; destruct (sb_links _), (sb_events _); reflexivity.
Qed.



Section one.
Context {V : Type} (st : story V).
Notation started := (b_start_with_context (st_limits st) false (st_sampler st) (st_gen_trace st) (st_gen_span st) (st_now st) []
             (b_build (st_name st) (st_calls st)) (st_parent st)).

(** What reaches the processor. *)
Lemma handed_data x : handed st = Some x -> cx_suppress (st_parent st) = false /\
  sc_trace (d_ctx x) = st_trace st /\ sc_span (d_ctx x) = st_id st /\ TraceModel.sc_state (d_ctx x) = snd (st_result st) /\
  sc_flags (d_ctx x) = with_sampled (sc_flags (cx_span_context (st_parent st))) (match fst (fst (st_result st)) with RecordAndSample => true | _ => false end) /\
  d_scope x = st_scope st /\
  holds_offered (st_limits st) (all_attrs st) (all_events st) (all_links st) (d_data x) /\
  sd_parent (d_data x) = match cx_span (st_parent st) with Some psc => sc_span psc | None => 0 end /\
  sd_kind (d_data x) = or INTERNAL (last_given g_kind (st_calls st)) /\
  sd_name (d_data x) = last (flat_map offered_names (st_ops st)) (st_name st) /\
  sd_start (d_data x) = st_start st /\
  ended_at (st_start st) (last_given g_end (st_calls st)) (st_life st) = Some (sd_end (d_data x)) /\
  In (sd_status (d_data x)) (all_statuses st) /\ forall y, In y (all_statuses st) -> weaker y (sd_status (d_data x)).
Proof.
  intros H. unfold handed in H.
  destruct (cx_suppress (st_parent st)) eqn:Hs.
  { exfalso. destruct (C28_suppressed_or_shut_down attr V (st_limits st) false (shown (st_sampler st)) (st_gen_trace st) (st_gen_span st) (st_now st) []
      (b_build (st_name st) (st_calls st)) (st_parent st) (or_introl Hs)) as [Hr _].
    destruct (C26_non_recording_never_delivered attr unit (KvModel.sc_name (st_scope st)) [tt] _ false (st_life st) Hr) as [_ X].
    unfold b_start_with_context in H. rewrite X in H. discriminate. }
  split; [reflexivity|].
  pose proof (C156_started_span attr V (st_limits st) (st_sampler st) (st_gen_trace st) (st_gen_span st) (st_now st) (st_name st) (st_calls st) (st_parent st) [] Hs) as HS.
  cbv zeta in HS. cbn [fold_left flat_map] in HS. rewrite !app_nil_r in HS. fold (st_result st) in HS.
  pose proof (created_identity (st_limits st) (shown (st_sampler st)) (st_gen_trace st) (st_gen_span st) (st_now st) [] (b_build (st_name st) (st_calls st)) (st_parent st) Hs) as HI.
  assert (HL : sp_limits started = st_limits st) by (apply started_limits, Hs).
  set (s := started) in *. change (start_span (st_limits st) false (shown (st_sampler st)) (st_gen_trace st) (st_gen_span st) (st_now st) [] (b_build (st_name st) (st_calls st)) (st_parent st)) with s in HI.
  cbv zeta in HI.
  destruct (st_result st) as [[dec extra] state] eqn:ER.
  assert (HR : sampling (shown (st_sampler st)) (b_build (st_name st) (st_calls st)) (st_parent st)
    (match cx_span (st_parent st) with Some psc => sc_trace psc | None => match sb_trace_id (b_build (st_name st) (st_calls st)) with Some i => i | None => st_gen_trace st end end) = (dec, extra, state)).
  { rewrite <- ER. unfold st_result, result_of, sampling, shown. rewrite C156_last_call_wins. cbn [sb_sampling sb_name sb_kind sb_attrs sb_links sb_trace_id].
    destruct (last_given g_sampling (st_calls st)); [reflexivity|]. unfold links_asked, trace_of. destruct (last_given g_links (st_calls st)); reflexivity. }
  rewrite HR in HI. destruct HI as (_ & _ & _ & _ & HF & _). destruct HS as (H1 & H2 & H3 & _ & HD).
  destruct (sp_data s) as [d|] eqn:Ed.
  2: { exfalso. assert (Hr : is_recording s = false) by (unfold is_recording; rewrite Ed; reflexivity).
    destruct (C26_non_recording_never_delivered attr unit (KvModel.sc_name (st_scope st)) [tt] s false (st_life st) Hr) as [_ X]. rewrite X in H. discriminate. }
  destruct HD as (Hdec & HO & Hp & Hk & Hn & Hst & Hen & Hu). specialize (Hu eq_refl). cbn [last] in Hn. rewrite app_nil_r in HO.
  destruct (life_split (st_life st) (st_start st) (last_given g_end (st_calls st))) as [[X _]|(pre & e & post & El & Hpre & He & Eb & Ee)].
  { rewrite (C26_not_ended_not_delivered attr unit (KvModel.sc_name (st_scope st)) [tt] s false (st_life st) X) in H. discriminate. }
  destruct (C26_delivered_once attr unit (KvModel.sc_name (st_scope st)) [tt] s d false pre e post Ed Hpre He) as (dn & d' & Fin & Dn & Up).
  rewrite El in H.
  assert (Hshut : ~ shut_in pre). { intros X. rewrite (Dn (or_intror X)) in H. discriminate. }
  rewrite (Up (conj eq_refl Hshut)) in H. cbn [snd map] in H. injection H as <-. cbn [d_ctx d_data d_scope ex_ctx ex_data].
  cbv zeta in Fin. rewrite HL in Fin.
  assert (Eo : st_ops st = ops_of pre) by exact Eb. rewrite <- Eo in Fin.
  pose proof (ops_offered (st_limits st) (st_ops st) _ _ _ d HO) as HO'.
  destruct (ops_rest (st_limits st) (st_ops st) d) as (R1 & R2 & R3 & R4 & R5 & R6). cbv zeta in R1, R2, R3, R4, R5, R6.
  set (d0 := fold_left (fun d o => data_op (st_limits st) o d) (st_ops st) d) in *.
  destruct Fin as (F1 & F2 & F3 & F4 & F5 & F6 & F7 & F8 & F9 & F10 & F11 & F12).
  split; [exact H1|]. split; [exact H2|]. cbn [fst snd]. split; [exact H3|]. split; [destruct dec; [contradiction|exact HF|exact HF]|]. split; [reflexivity|].
  split. { unfold holds_offered in *. rewrite F6, F7, F8, F9, F10, F11. unfold all_attrs, all_events, all_links. rewrite ER. cbn [fst snd]. rewrite app_assoc. exact HO'. }
  split; [rewrite F2, R1; exact Hp|]. split; [rewrite F3, R2; exact Hk|]. split; [rewrite F4, R5, Hn; reflexivity|]. split; [rewrite F5, R3; exact Hst|].
  split. { rewrite Ee. f_equal. rewrite F1. destruct e as [o|t|t|]; try reflexivity. rewrite R3, R4, Hst, Hen. unfold st_start.
    destruct (last_given g_end (st_calls st)) as [z|]; cbn [or]; [reflexivity|]. rewrite Hst, Z.eqb_refl. reflexivity. }
  rewrite F12, R6. unfold all_statuses. rewrite <- Hu. apply join_strongest.
Qed.

Lemma handed_tells x : typed_story st -> handed st = Some x -> tells st (span_msg x) /\ typed_span x.
Proof.
  intros (T1 & T2 & T3 & T4 & T5 & T6 & T7 & T8 & T9 & T10 & T11 & T12) H.
  destruct (handed_data x H) as (Hs & E1 & E2 & E3 & E4 & E5 & (O1 & O2 & O3 & O4 & O5 & O6) & E6 & E7 & E8 & E9 & E10 & E11 & E12).
  assert (Hf : sc_flags (cx_span_context (st_parent st)) < 256).
  { unfold cx_span_context. destruct (cx_span (st_parent st)) as [psc|]; [apply T3|reflexivity]. }
  destruct (with_sampled_bits (sc_flags (cx_span_context (st_parent st))) (match fst (fst (st_result st)) with RecordAndSample => true | _ => false end)) as [B1 B2]. specialize (B2 Hf).
  split.
  - unfold tells, span_msg. cbn [p_trace p_span p_state p_parent p_flags p_name p_kind p_start p_end p_attrs p_attrs_dropped p_events p_events_dropped p_links p_links_dropped p_code p_message].
    rewrite E1, E2, E3, E4, E6, E7, E8, E9, O1, O2, O3, O4, O5, O6.
    split; [apply id_told_trace, T1|]. split; [apply id_told_span, T2|].
    split. { destruct (cx_span (st_parent st)) as [psc|]; [|reflexivity]. destruct (sc_span psc =? 0); [reflexivity|]. apply id_told_span, T3. }
    split; [apply state_told_header|].
    split. { rewrite B1. destruct (fst (fst (st_result st))); split; congruence. }
    split; [exact B2|]. split; [reflexivity|]. split; [apply kind_told_msg, T7|]. split; [apply time_told_nanos|].
    split. { eexists. split; [exact E10|apply time_told_nanos]. }
    split; [apply attrs_told|]. split; [apply events_told|]. split; [apply links_told, T10|].
    exists (sd_status (d_data x)). split; [exact E11|]. split; [exact E12|apply status_told_msg].
  - unfold typed_span. rewrite E3, E4, E5, E8, O1, O2, O3, O4, O5, O6. split; [exact T4|].
    split. { unfold with_sampled. destruct (match fst (fst (st_result st)) with RecordAndSample => true | _ => false end).
      - apply N.lt_nge. intros X. assert (N.lor (sc_flags (cx_span_context (st_parent st))) SAMPLED < 2 ^ 8); [|lia].
        destruct (N.eq_dec (N.lor (sc_flags (cx_span_context (st_parent st))) SAMPLED) 0) as [->|]; [reflexivity|]. apply N.log2_lt_pow2; [lia|].
        rewrite N.log2_lor. apply N.max_lub_lt; [|reflexivity]. destruct (N.eq_dec (sc_flags (cx_span_context (st_parent st))) 0) as [->|]; [reflexivity|]. apply N.log2_lt_pow2; lia.
      - apply N.le_lt_trans with (2 := Hf). apply N.ldiff_le. apply N.bits_inj. intros i. rewrite N.ldiff_spec, N.land_spec, N.bits_0. destruct (N.testbit (sc_flags _) i), (N.testbit 254 i); reflexivity. }
    split. { assert (G : forall (l : list str) d, text d -> Forall text l -> text (last l d)).
      { clear. intros l d Hd Hl. induction Hl as [|y l Hy Hl IH]; [exact Hd|]. destruct l; [exact Hy|exact IH]. }
      apply G; assumption. }
    split; [apply keep_forall, T8|]. split; [apply excess_u32|].
    split. { apply Forall_map, keep_forall. eapply Forall_impl; [|exact T9]. intros [[n t] a] [Hn Ha]. cbn [fst snd] in *. split; [exact Hn|]. split; [apply keep_forall, Ha|apply excess_u32]. }
    split; [apply excess_u32|].
    split. { apply Forall_map, keep_forall. eapply Forall_impl; [|exact T10]. intros [sc a] [(C1 & C2 & C3 & C4) Ha]. cbn [fst snd] in *. split; [exact C4|]. split; [exact C3|]. split; [apply keep_forall, Ha|apply excess_u32]. }
    split; [apply excess_u32|]. split; [rewrite Forall_forall in T11; apply T11, E11|exact T12].
Qed.
End one.

(** * All spans of a program
    With a batch processor and an OTLP exporter, reading the bytes of all requests gives
    messages of which no two are equal.  Each tells the story of a span that was ended and
    accepted; the story of an accepted span is told by exactly one of them, unless the span
    is still waiting, when it is told by none. *)
Theorem C177_spans_read : forall V Q M acts s same order r (stories : nat -> story V) data, size_ok Q -> (forall b, permutes (order b)) ->
  typed_resource r -> brun false Q M b_init acts = Some s ->
  let n := List.length (b_emits s) in
  (forall i, (i < n)%nat -> typed_story (stories i) /\ handed (stories i) = Some (data i)) ->
  (forall i j, (i < n)%nat -> (j < n)%nat -> st_trace (stories i) = st_trace (stories j) -> st_id (stories i) = st_id (stories j) -> i = j) ->
  let bodies := map (fun m => request_bytes span_bytes [m]) (trace_requests same order r data (b_exported s)) in
  exists read, map (read_request read_span) bodies = map Some read /\
  Forall (fun m => r_rattrs m = attrs_msg (re_attrs r) /\ r_rurl m = or_empty (re_url r)) (concat read) /\
  let spans := concat (map carried (concat read)) in
  NoDup spans /\
  (forall m, In m spans -> exists i, (i < n)%nat /\ tells (stories i) m /\ In i (b_accepted s)) /\
  (forall i, fate s i OAccepted ->
    (exists m, In m spans /\ tells (stories i) m /\ forall m', In m' spans -> tells (stories i) m' -> m' = m) \/
    (In i (wbuf (b_worker s) ++ b_queue s) /\ forall m, In m spans -> ~ tells (stories i) m)) /\
  (forall i o, fate s i o -> o <> OAccepted -> forall m, In m spans -> ~ tells (stories i) m).
Proof.
  intros V Q M acts s same order r stories data HQ Ho Hr Hs n Hh Hdiff bodies.
  assert (Hd : forall i, (i < n)%nat -> sc_trace (d_ctx (data i)) = st_trace (stories i) /\ sc_span (d_ctx (data i)) = st_id (stories i)).
  { intros i Hi. destruct (Hh i Hi) as [_ X]. destruct (handed_data _ _ X) as (_ & E1 & E2 & _). auto. }
  assert (Hdf : ids_differ n data).
  { intros i j Hi Hj. destruct (Hd i Hi) as [-> ->], (Hd j Hj) as [-> ->]. apply Hdiff; assumption. }
  assert (Hrg : ids_in_range n data).
  { intros i Hi. destruct (Hd i Hi) as [-> ->]. destruct (Hh i Hi) as [(T1 & T2 & _) _]. auto. }
  assert (Hty : forall i, (i < n)%nat -> typed_span (data i)).
  { intros i Hi. destruct (Hh i Hi) as [T X]. apply (handed_tells _ _ T X). }
  assert (Htl : forall i, (i < n)%nat -> tells (stories i) (span_msg (data i))).
  { intros i Hi. destruct (Hh i Hi) as [T X]. apply (handed_tells _ _ T X). }
  destruct (C158_batches_arrive Q M acts s same order r data HQ Ho Hr Hs Hdf Hrg Hty) as (read & E & N1 & N2 & N3).
  destruct (C150_spans_on_the_wire Q M acts s same order r data HQ Ho Hs Hdf Hrg) as (_ & _ & _ & W4 & W5 & _ & W7).
  destruct (C32_C36_order false Q M acts s HQ Hs) as (Fifo & _ & Acc & In1 & Out).
  assert (Lt : forall i, In i (b_accepted s) -> (i < n)%nat).
  { intros i X. apply Acc in X. destruct X as (e & X & _). apply nth_error_Some. congruence. }
  assert (Er : concat read = trace_requests same order r data (b_exported s)).
  { assert (E2 : map (read_request read_span) bodies = map (fun m => Some [m]) (trace_requests same order r data (b_exported s))).
    { unfold bodies. rewrite map_map. apply map_ext_in. intros m Hm. unfold trace_requests in Hm. apply in_map_iff in Hm. destruct Hm as (b & <- & Hb).
      apply C158_spans_arrive; [apply Ho| |exact Hr]. apply Forall_map, Forall_forall. intros i X. apply Hty, Lt. rewrite Fifo. apply in_or_app. left.
      unfold BatchProps.exported. apply in_concat. eauto. }
    fold bodies in E. rewrite E in E2. clear - E2. revert E2. generalize (trace_requests same order r data (b_exported s)). induction read as [|x read IH]; intros [|m l] E2; try discriminate; [reflexivity|].
    cbn [map] in E2. injection E2 as -> E2. cbn [concat List.app]. f_equal. apply IH, E2. }
  assert (One : forall i m, (i < n)%nat -> In m (concat (map carried (concat read))) -> tells (stories i) m -> m = span_msg (data i)).
  { intros i m Hi Hm Ht. destruct (N3 m Hm) as (j & -> & Hj). apply Lt in Hj. pose proof (Htl j Hj) as Hj2.
    destruct Ht as (A1 & A2 & _), Hj2 as (B1 & B2 & _). f_equal. f_equal. apply Hdiff; [exact Hj|exact Hi| |].
    - eapply told_once; eassumption.
    - eapply told_once; eassumption. }
  exists read. split; [exact E|].
  split. { rewrite Er. eapply Forall_impl; [|exact W7]. intros m (_ & _ & X). exact X. }
  split; [exact N1|].
  split. { intros m Hm. destruct (N3 m Hm) as (i & -> & Hi). exists i. split; [apply Lt, Hi|]. split; [apply Htl, Lt, Hi|exact Hi]. }
  split.
  - intros i Hi. pose proof (Lt i (In1 i Hi)) as Hlt. destruct (N2 i Hi) as [X|X].
    + left. exists (span_msg (data i)). split; [exact X|]. split; [apply Htl, Hlt|]. intros m' Hm' Ht. apply One; assumption.
    + right. split; [exact X|]. intros m Hm Ht. pose proof (One i m Hlt Hm Ht) as ->. rewrite Er in Hm. exact (W5 i X Hm).
  - intros i o Hf Ho' m Hm Ht. assert (Hlt : (i < n)%nat) by (destruct Hf as (e & Hf & _); apply nth_error_Some; congruence).
    pose proof (One i m Hlt Hm Ht) as ->. rewrite Er in Hm. exact (W4 i o Hf Ho' Hm).
Qed.
Print Assumptions C177_spans_read.

(** Which spans are handed to the processor: those started in a context that does not
    suppress telemetry, which the sampler does not drop, and which are ended or dropped
    before the provider is shut down. *)
Fixpoint ended_in_time {A} (l : list (action A)) : bool :=
  match l with
  | [] | ProviderShutdown :: _ => false
  | Op _ :: l => ended_in_time l
  | _ => true
  end.
Lemma in_time_split {A} (l : list (action A)) : ended_in_time l = true <->
  exists pre e post, l = pre ++ e :: post /\ (forall a, In a pre -> ends a = false) /\ ends e = true /\ ~ shut_in pre.
Proof.
  split.
  - induction l as [|[o|t|t|] l IH]; cbn [ended_in_time]; intros H; try discriminate.
    + destruct (IH H) as (pre & e & post & -> & H1 & H2 & H3). exists (Op o :: pre), e, post. split; [reflexivity|].
      split; [intros a [<-|Ha]; [reflexivity|apply H1, Ha]|]. split; [exact H2|]. intros [X|X]; [discriminate|exact (H3 X)].
    + exists [], (End t), l. split; [reflexivity|]. split; [intros a []|]. split; [reflexivity|intros []].
    + exists [], (DropSpan t), l. split; [reflexivity|]. split; [intros a []|]. split; [reflexivity|intros []].
  - intros (pre & e & post & -> & H1 & H2 & H3). induction pre as [|a pre IH]; [destruct e; try discriminate; reflexivity|].
    cbn [List.app]. pose proof (H1 a (or_introl eq_refl)) as Ha. destruct a as [o|t|t|]; try discriminate.
    + cbn [ended_in_time]. apply IH; [intros; apply H1; right; assumption|]. intros X. apply H3. right. exact X.
    + exfalso. apply H3. left. reflexivity.
Qed.
Theorem C177_handed_over : forall V (st : story V), handed st <> None <->
  cx_suppress (st_parent st) = false /\ fst (fst (st_result st)) <> Drop /\ ended_in_time (st_life st) = true.
Proof.
  intros V st. split.
  - intros H. destruct (handed st) as [x|] eqn:E; [|contradiction]. destruct (handed_data st x E) as (Hs & _). split; [exact Hs|].
    unfold handed in E. pose proof (C156_started_span attr V (st_limits st) (st_sampler st) (st_gen_trace st) (st_gen_span st) (st_now st) (st_name st) (st_calls st) (st_parent st) [] Hs) as HS.
    cbv zeta in HS. cbn [fold_left] in HS. fold (st_result st) in HS.
    set (s := b_start_with_context _ _ _ _ _ _ _ _ _) in *. destruct (st_result st) as [[dec extra] state]. destruct HS as (_ & _ & _ & _ & HD).
    destruct (sp_data s) as [d|] eqn:Ed.
    + split; [apply HD|]. apply in_time_split. destruct (life_split (st_life st) 0%Z None) as [[X _]|(pre & e & post & El & Hpre & He & _)].
      { rewrite (C26_not_ended_not_delivered attr unit (KvModel.sc_name (st_scope st)) [tt] s false (st_life st) X) in E. discriminate. }
      exists pre, e, post. split; [exact El|]. split; [exact Hpre|]. split; [exact He|]. intros X.
      destruct (C26_delivered_once attr unit (KvModel.sc_name (st_scope st)) [tt] s d false pre e post Ed Hpre He) as (dn & d' & _ & Dn & _).
      rewrite El, (Dn (or_intror X)) in E. discriminate.
    + assert (Hr : is_recording s = false) by (unfold is_recording; rewrite Ed; reflexivity).
      destruct (C26_non_recording_never_delivered attr unit (KvModel.sc_name (st_scope st)) [tt] s false (st_life st) Hr) as [_ X]. rewrite X in E. discriminate.
  - intros (Hs & Hd & Hl). apply in_time_split in Hl. destruct Hl as (pre & e & post & El & Hpre & He & Hn).
    pose proof (C156_started_span attr V (st_limits st) (st_sampler st) (st_gen_trace st) (st_gen_span st) (st_now st) (st_name st) (st_calls st) (st_parent st) [] Hs) as HS.
    cbv zeta in HS. cbn [fold_left] in HS. fold (st_result st) in HS. unfold handed.
    set (s := b_start_with_context _ _ _ _ _ _ _ _ _) in *. destruct (st_result st) as [[dec extra] state]. destruct HS as (_ & _ & _ & _ & HD).
    destruct (sp_data s) as [d|] eqn:Ed; [|contradiction].
    destruct (C26_delivered_once attr unit (KvModel.sc_name (st_scope st)) [tt] s d false pre e post Ed Hpre He) as (dn & d' & _ & _ & Up).
    rewrite El, (Up (conj eq_refl Hn)). discriminate.
Qed.
Print Assumptions C177_handed_over.

(** A message is read below the scope of the tracer that made its span. *)
Theorem C177_spans_under_their_tracer : forall V Q M acts s srt same order r (stories : nat -> story V) data, size_ok Q -> sorter_ok srt -> map_lookup srt same ->
  (forall b, permutes (order b)) -> typed_resource r -> brun false Q M b_init acts = Some s ->
  let n := List.length (b_emits s) in
  (forall i, (i < n)%nat -> typed_story (stories i) /\ handed (stories i) = Some (data i)) ->
  forall body, In body (map (fun m => request_bytes span_bytes [m]) (trace_requests same order r data (b_exported s))) ->
  exists m, read_request read_span body = Some [m] /\
  forall g p, In g (r_groups m) -> In p (g_items g) -> exists i sc, (i < n)%nat /\ tells (stories i) p /\
    (sc = st_scope (stories i) \/ scope_eqb srt (st_scope (stories i)) sc = true) /\
    ps_name (g_scope g) = KvModel.sc_name sc /\ ps_version (g_scope g) = or_empty (KvModel.sc_version sc) /\
    Forall2 attr_told (KvModel.sc_attrs sc) (ps_attrs (g_scope g)).
Proof.
  intros V Q M acts s srt same order r stories data HQ Hsrt Hl Ho Hr Hs n Hh body Hb.
  destruct (C32_C36_order false Q M acts s HQ Hs) as (Fifo & _ & Acc & _).
  assert (Lt : forall i, In i (exported s) -> (i < n)%nat).
  { intros i X. destruct (Acc i) as (e & He & _); [rewrite Fifo; apply in_or_app; auto|]. apply nth_error_Some. congruence. }
  apply in_map_iff in Hb. destruct Hb as (m & <- & Hm). exists m. split.
  - pose proof Hm as Hm'. unfold trace_requests in Hm'. apply in_map_iff in Hm'. destruct Hm' as (b & <- & Hb). apply C158_spans_arrive; [apply Ho| |exact Hr].
    apply Forall_map, Forall_forall. intros i X. destruct (Hh i) as [T Y]; [|apply (handed_tells _ _ T Y)].
    apply Lt. unfold BatchProps.exported. apply in_concat. eauto.
  - intros g p Hg Hp. destruct (C150_spans_under_their_scope Q M acts s srt same order r data HQ Hsrt Hl Ho Hs m g Hm Hg) as (first & rest & E1 & E2 & E3 & E4).
    rewrite E1 in Hp. apply in_map_iff in Hp. destruct Hp as (x & <- & Hx). rewrite Forall_forall in E3, E4.
    destruct (E4 x Hx) as (i & -> & Hi). apply Lt in Hi. destruct (Hh i Hi) as [T Y].
    exists i, (d_scope first). split; [exact Hi|]. split; [apply (handed_tells _ _ T Y)|].
    split. { destruct (handed_data _ _ Y) as (_ & _ & _ & _ & _ & <- & _). destruct Hx as [->|Hx]; [left; reflexivity|right; apply E3, Hx]. }
    rewrite E2. cbn [ps_name ps_version ps_attrs]. split; [reflexivity|]. split; [reflexivity|].
    unfold attrs_msg. rewrite <- (map_id (KvModel.sc_attrs (d_scope first))) at 1. apply forall2_map. intros z _. split; [reflexivity|apply conveys_any].
Qed.
Print Assumptions C177_spans_under_their_tracer.

(** Shutting down with no more than a batch queued: the stories of all accepted spans are
    told by then. *)
Theorem C177_all_read_after_shutdown : forall V Q M acts acts' s0 s1 same order r (stories : nat -> story V) data, size_ok Q -> (0 < M)%nat -> (forall b, permutes (order b)) ->
  typed_resource r -> brun false Q M b_init acts = Some s0 -> (List.length (b_queue s0) <= M)%nat ->
  brun false Q M s0 (Shutdown :: acts') = Some s1 -> ctl s1 (List.length (b_ctls s0)) true ROk ->
  (forall i, (i < List.length (b_emits s1))%nat -> typed_story (stories i) /\ handed (stories i) = Some (data i)) ->
  exists read, map (read_request read_span) (map (fun m => request_bytes span_bytes [m]) (trace_requests same order r data (b_exported s1))) = map Some read /\
  forall i, fate s0 i OAccepted -> exists m, In m (concat (map carried (concat read))) /\ tells (stories i) m.
Proof.
  intros V Q M acts acts' s0 s1 same order r stories data HQ HM Ho Hr H0 Hq H1 Hc Hh.
  assert (Hs : brun false Q M b_init (acts ++ Shutdown :: acts') = Some s1).
  { clear - H0 H1. revert H0. generalize b_init. induction acts as [|a acts IH]; intros s H0.
    - cbn [brun] in H0. injection H0 as ->. exact H1.
    - cbn [List.app brun] in *. destruct (bstep false Q M s a) as [s'|]; [apply IH, H0|discriminate]. }
  destruct (C32_C36_order false Q M _ s1 HQ Hs) as (Fifo & _ & Acc & _).
  assert (Lt : forall i, In i (exported s1) -> (i < List.length (b_emits s1))%nat).
  { intros i X. destruct (Acc i) as (e & He & _); [rewrite Fifo; apply in_or_app; auto|]. apply nth_error_Some. congruence. }
  exists (map (fun m => [m]) (trace_requests same order r data (b_exported s1))). split.
  - rewrite !map_map. apply map_ext_in. intros m Hm. unfold trace_requests in Hm. apply in_map_iff in Hm. destruct Hm as (b & <- & Hb).
    apply C158_spans_arrive; [apply Ho| |exact Hr]. apply Forall_map, Forall_forall. intros i X. destruct (Hh i) as [T Y]; [|apply (handed_tells _ _ T Y)].
    apply Lt. unfold BatchProps.exported. apply in_concat. eauto.
  - intros i Hi. assert (E : forall l : list (presource pspan), concat (map (fun m => [m]) l) = l).
    { intros l. induction l as [|m l IH]; [reflexivity|]. cbn [map concat List.app]. rewrite IH. reflexivity. }
    rewrite E. destruct (C34_shutdown_exports_a_batch Q M acts acts' s0 s1 HQ HM H0 H1 Hc) as (_ & X). specialize (X Hq i Hi).
    exists (span_msg (data i)). split.
    + exact (C150_shutdown_sends_the_rest Q M acts acts' s0 s1 same order r data HQ HM Ho H0 Hq H1 Hc i Hi).
    + destruct (Hh i) as [T Y]; [apply Lt, X|]. apply (handed_tells _ _ T Y).
Qed.
Print Assumptions C177_all_read_after_shutdown.

(** Two spans, the second below the first, with more attributes than the limit and a
    status; both are ended and exported. *)
Definition ex177_limits : limits := mk_limits 2 2 1 1 1.
Definition ex177_scope : KvModel.scope := mk_scope (of_string "lib") (Some (of_string "1")) None [].
Definition ex177 (i : nat) : story N :=
  if Nat.eqb i 0
  then mk_story ex177_limits (fun _ _ _ _ _ _ => (RecordAndSample, [(of_string "s", VBool true)], None)) ex177_scope 7 8 100%Z (of_string "a")
         [WithKind 1; WithAttributes [(of_string "k", VI64 5)]] cx_new [Op (SetAttribute (of_string "x", VString (of_string "y"))); Op (UpdateName (of_string "b")); End 120%Z]
  else mk_story ex177_limits (fun _ _ _ _ _ _ => (RecordOnly, [], None)) ex177_scope 1 9 110%Z (of_string "c")
         [] (mk_context (Some (mk_sc 7 8 1 false None)) None false) [Op (AddEvent (of_string "e") 111%Z []); Op (SetStatus (Error (of_string "bad"))); DropSpan 115%Z].
Definition ex177_data (i : nat) : sdata := match handed (ex177 i) with Some x => x | None => ex_wire i end.
Example C177_nonvacuous :
  match brun false 3 3 b_init (ex_ended ++ Shutdown :: [CStep 0; CStep 0] ++ map WStep (repeat true 8) ++ [CStep 0]) with
  | Some s => List.length (b_emits s) = 2%nat /\ b_exported s = [[0; 1]]%nat /\
      map (fun m => option_map (map (fun m => map (fun p => (p_name p, p_span p, p_parent p, p_flags p, p_end p, (p_attrs p, p_attrs_dropped p, p_code p, p_message p))) (carried m))) (read_request read_span (request_bytes span_bytes [m])))
        (trace_requests (scope_eqb isort) (fun _ l => l) (mk_resource [] None) ex177_data (b_exported s))
      = [Some [[(of_string "b", [0; 0; 0; 0; 0; 0; 0; 8], [], 1, 120%Z, ([(of_string "k", PInt 5); (of_string "s", PBool true)], 1, 0%Z, []));
                (of_string "c", [0; 0; 0; 0; 0; 0; 0; 9], [0; 0; 0; 0; 0; 0; 0; 8], 0, 115%Z, ([], 0, 2%Z, of_string "bad"))]]]
  | None => False
  end /\
  (forall i, (i < 2)%nat -> typed_story (ex177 i) /\ handed (ex177 i) = Some (ex177_data i)) /\
  (forall i j, (i < 2)%nat -> (j < 2)%nat -> st_trace (ex177 i) = st_trace (ex177 j) -> st_id (ex177 i) = st_id (ex177 j) -> i = j).
Proof.
  split; [vm_compute; repeat split|]. split.
  - intros i Hi. destruct i as [|[|i]]; [| |lia]; (split; [|vm_compute; reflexivity]).
    all: unfold typed_story.
    all: match goal with |- context [all_attrs ?x] => let l := eval vm_compute in (all_attrs x) in change (all_attrs x) with l end.
    all: match goal with |- context [all_events ?x] => let l := eval vm_compute in (all_events x) in change (all_events x) with l end.
    all: match goal with |- context [all_links ?x] => let l := eval vm_compute in (all_links x) in change (all_links x) with l end.
    all: match goal with |- context [all_statuses ?x] => let l := eval vm_compute in (all_statuses x) in change (all_statuses x) with l end.
    all: repeat (split; [first [reflexivity|exact I|repeat split; first [reflexivity|discriminate]|repeat constructor; discriminate]|]).
    all: repeat constructor.
  - intros i j Hi Hj. destruct i as [|[|i]]; [| |lia]; (destruct j as [|[|j]]; [| |lia]); try reflexivity; intros _ H; discriminate H.
Qed.
