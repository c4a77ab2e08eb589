(** C178: log records from the calls of the API to what an OTLP receiver reads. *)
From Coq Require Import String List NArith ZArith Bool Lia Permutation.
From Verif Require Import Str StrProofs ContextModel TraceModel SpanModel BuilderModel BuilderProps KvModel LogModel LogProps OtlpModel OtlpProps
  ProviderModel BatchModel BatchProofs BatchProps WireProps ProtoSpec ProtoModel ProtoProps SpanWireSpec SpanWireProps LogWireSpec BridgeModel BridgeProps.
Import ListNotations.
Local Open Scope N_scope.

(** * One record *)
Lemma latest_last_set {A B X} (f : rec_op A B -> option X) l : last_set f l None = latest f l.
Proof.
  unfold latest, last_set. induction l as [|o l IH] using rev_ind; [reflexivity|]. rewrite fold_left_app, flat_map_app. cbn [fold_left flat_map].
  destruct (f o); [cbn [List.app]; rewrite last_last; reflexivity|]. rewrite !app_nil_r. exact IH.
Qed.
Lemma log_conveys_any : forall v, log_conveys v (any_of_log v).
Proof.
  fix IH 1. intros [z|f|s|b|b|l|l]; cbn [any_of_log]; constructor.
  - induction l as [|v l IHl]; constructor; [apply IH|exact IHl].
  - induction l as [|[k v] l IHl]; constructor; [split; [reflexivity|apply IH]|exact IHl].
Qed.
Lemma latest_map {A B X Y} (g : X -> Y) (f : rec_op A B -> option X) (h : rec_op A B -> option Y) l :
  (forall o, h o = option_map g (f o)) -> latest h l = option_map g (latest f l).
Proof.
  intros H. rewrite <- !latest_last_set. unfold last_set. change (@None Y) with (option_map g None). generalize (@None X).
  induction l as [|o l IH]; intros x; [reflexivity|]. cbn [fold_left]. rewrite H. destruct (f o); cbn [option_map]; apply (IH (Some _)) || apply IH.
Qed.

Section one.
Context {V : Type} (st : lstory V).
Lemma log_handed_data x : log_handed st = Some x ->
  cx_suppress (ls_context st) = false /\ snd x = ls_scope st /\
  attributes (fst x) = ls_attrs st /\ lr_event (fst x) = ls_event st /\ lr_target (fst x) = ls_target st /\ lr_time (fst x) = ls_time st /\
  lr_observed (fst x) = Some match ls_observed st with Some t => t | None => ls_now st end /\
  lr_trace (fst x) = option_map (fun t => mk_tctx (fst (fst t)) (snd (fst t)) (snd t)) (ls_trace st) /\
  lr_sevtext (fst x) = ls_sevtext st /\ lr_sev (fst x) = ls_sev st /\ lr_body (fst x) = ls_body st.
Proof.
  intros H. unfold log_handed in H. destruct (cx_suppress (ls_context st)) eqn:Hs.
  { rewrite (C39_suppressed _ _ V _ _ _ _ Hs) in H. discriminate. }
  destruct (C39_emit _ _ V (ls_now st) (ls_context st) [fun r => r] (fold_left rec_apply (ls_calls st) rec_new) Hs) as (r' & He & _ & _ & Hd).
  rewrite Hd in H by (intros p y [<-|[]]; reflexivity). cbn [repeat List.length] in H. injection H as <-. cbn [fst snd].
  split; [reflexivity|]. split; [reflexivity|].
  pose proof (C41_record _ _ (ls_calls st)) as HR. cbv zeta in HR. destruct HR as (R1 & _ & R2 & R3 & R4 & R5 & R6 & R7 & R8 & R9).
  set (r := fold_left rec_apply (ls_calls st) rec_new) in *. destruct He as (E1 & E2 & E3 & E4 & E5 & E6 & E7 & E8 & E9).
  rewrite latest_last_set in R2. rewrite latest_last_set in R3. rewrite latest_last_set in R4. rewrite latest_last_set in R5.
  rewrite latest_last_set in R6. rewrite latest_last_set in R7. rewrite latest_last_set in R8. rewrite latest_last_set in R9.
  split. { unfold attributes in *. rewrite E9. exact R1. }
  rewrite E1, E2, E3, E4, E5, E6, E7, E8, R2, R3, R4, R5, R6, R7, R8, R9.
  split; [reflexivity|]. split; [reflexivity|]. split; [reflexivity|]. split; [reflexivity|]. split; [|auto].
  unfold ls_trace. rewrite (latest_map (fun t => mk_tctx (fst (fst t)) (snd (fst t)) (snd t)) (fun o => match o with SetTrace t s f => Some (t, s, f) | _ => None end))
    by (intros []; reflexivity).
  destruct (latest (fun o => match o with SetTrace t s f => Some (t, s, f) | _ => None end) (ls_calls st)) as [[[a b] c]|]; [reflexivity|]. cbn [option_map]. destruct (cx_span (ls_context st)); reflexivity.
Qed.

Lemma log_handed_tells x : typed_lstory st -> log_handed st = Some x -> typed_log x /\ exists p, log_msg (fst x) = Some p /\ log_tells st p.
Proof.
  intros (T1 & T2 & T3 & T4 & T5 & T6 & T7 & T8) H. destruct (log_handed_data x H) as (_ & D1 & D2 & D3 & D4 & D5 & D6 & D7 & D8 & D9 & D10).
  split.
  - unfold typed_log. rewrite D1, D2, D3, D4, D6, D7, D8, D9, D10. split; [exact T1|]. split; [exact T2|]. split; [discriminate|].
    split; [exact T3|]. split; [exact T4|]. split; [exact T5|]. split; [exact T6|]. split; [|exact T8].
    destruct (ls_trace st) as [[[t s] f]|]; [apply T7|exact I].
  - unfold log_msg. rewrite D2, D3, D5, D6, D7, D8, D9, D10. eexists. split; [reflexivity|].
    unfold log_tells. cbn [q_time q_observed q_attrs q_event q_sev q_sevtext q_body q_flags q_span q_trace].
    split. { destruct (ls_time st); [apply time_told_nanos|reflexivity]. }
    split; [apply time_told_nanos|].
    split. { rewrite <- (map_id (ls_attrs st)) at 1. apply forall2_map. intros z _. split; [reflexivity|apply log_conveys_any]. }
    split; [destruct (ls_event st); reflexivity|]. split; [destruct (ls_sev st); reflexivity|]. split; [destruct (ls_sevtext st); reflexivity|].
    split. { destruct (ls_body st); [apply log_conveys_any|exact I]. }
    destruct (ls_trace st) as [[[t s] f]|]; cbn [option_map omap fst snd tc_trace tc_span tc_flags].
    + destruct T7 as (U1 & U2 & _). split; [apply id_told_trace, U1|]. split; [apply id_told_span, U2|]. destruct f; reflexivity.
    + auto.
Qed.
End one.

(** Which records are handed to the processor: those emitted in a context that does not
    suppress telemetry. *)
Theorem C178_handed_over : forall V (st : lstory V), log_handed st <> None <-> cx_suppress (ls_context st) = false.
Proof.
  intros V st. split.
  - intros H. destruct (log_handed st) as [x|] eqn:E; [|contradiction]. apply (log_handed_data st x E).
  - intros Hs. unfold log_handed.
    destruct (C39_emit _ _ V (ls_now st) (ls_context st) [fun r => r] (fold_left rec_apply (ls_calls st) rec_new) Hs) as (r' & _ & _ & _ & Hd).
    rewrite Hd by (intros p y [<-|[]]; reflexivity). discriminate.
Qed.
Print Assumptions C178_handed_over.

(** * All records *)
(** The bytes of the requests for the batches; the conversion never fails for them. *)
Definition log_bodies order r data batches : list (option (list N)) :=
  map (option_map (fun m => request_bytes log_bytes [m])) (log_requests order r data batches).

(** A record that is not asked for does not matter. *)
Definition filler : lrec * scope := (with_observed (Some 0%Z) rec_new, mk_scope [] None None []).
Lemma filler_typed : typed_log filler.
Proof. unfold typed_log, filler. cbn [fst snd]. repeat split; try exact I; try discriminate; constructor. Qed.
Definition first_of (n : nat) (data : nat -> lrec * scope) (i : nat) : lrec * scope := if (i <? n)%nat then data i else filler.
Lemma first_requests order r data n bs : (forall b i, In b bs -> In i b -> (i < n)%nat) ->
  log_requests order r (first_of n data) bs = log_requests order r data bs.
Proof.
  intros H. unfold log_requests. apply map_ext_in. intros b Hb. f_equal. apply map_ext_in. intros i Hi.
  unfold first_of. destruct (Nat.ltb_spec i n); [reflexivity|]. specialize (H b i Hb Hi). lia.
Qed.

Section all.
Context {V : Type} (Q M : nat) (acts : list baction) (s : bstate) (order : list nat -> list (str * list (lrec * scope)) -> list (str * list (lrec * scope)))
  (r : OtlpModel.resource) (stories : nat -> lstory V) (data : nat -> lrec * scope).
Context (HQ : size_ok Q) (Ho : forall b, permutes (order b)) (Hr : typed_resource r) (Hs : brun true Q M b_init acts = Some s)
  (Hh : forall i, (i < List.length (b_emits s))%nat -> typed_lstory (stories i) /\ log_handed (stories i) = Some (data i)).
Lemma all_lt i : In i (exported s) -> (i < List.length (b_emits s))%nat.
Proof using HQ Hs.
  intros X. destruct (C32_C36_order true Q M acts s HQ Hs) as (Fifo & _ & Acc & _).
  destruct (Acc i) as (e & He & _); [rewrite Fifo; apply in_or_app; auto|]. apply nth_error_Some. congruence.
Qed.
Lemma all_requests : log_requests order r (first_of (List.length (b_emits s)) data) (b_exported s) = log_requests order r data (b_exported s).
Proof using HQ Hs.
  apply first_requests. intros b i Hb Hi. apply all_lt. unfold exported. apply in_concat. eauto.
Qed.
Lemma all_typed i : typed_log (first_of (List.length (b_emits s)) data i).
Proof using Hh.
  unfold first_of. destruct (Nat.ltb_spec i (List.length (b_emits s))) as [X|X]; [|apply filler_typed].
  destruct (Hh i X) as [T Y]. apply (log_handed_tells _ _ T Y).
Qed.
End all.

(** Reading all requests sent so far gives, in some order, exactly one message for each
    record exported, which tells its story; each lies below the resource.  Every accepted
    record was exported or still waits; records turned away were not exported. *)
Theorem C178_records_read : forall V Q M acts s order r (stories : nat -> lstory V) data, size_ok Q -> (forall b, permutes (order b)) ->
  typed_resource r -> brun true Q M b_init acts = Some s ->
  let n := List.length (b_emits s) in
  (forall i, (i < n)%nat -> typed_lstory (stories i) /\ log_handed (stories i) = Some (data i)) ->
  exists bodies read told, log_bodies order r data (b_exported s) = map Some bodies /\ map (read_request read_log) bodies = map Some read /\
  Forall (fun m => r_rattrs m = attrs_msg (re_attrs r) /\ r_rurl m = or_empty (re_url r)) (concat read) /\
  Permutation (concat (map carried (concat read))) told /\
  NoDup (exported s) /\ Forall2 (fun i p => (i < n)%nat /\ In i (b_accepted s) /\ log_tells (stories i) p) (exported s) told /\
  (forall i, fate s i OAccepted -> In i (exported s) /\ ~ In i (wbuf (b_worker s) ++ b_queue s) \/ ~ In i (exported s) /\ In i (wbuf (b_worker s) ++ b_queue s)) /\
  (forall i o, fate s i o -> o <> OAccepted -> ~ In i (exported s)).
Proof.
  intros V Q M acts s order r stories data HQ Ho Hr Hs n Hh.
  pose proof (all_typed s stories data Hh) as Ht. pose proof (all_requests Q M acts s order r data HQ Hs) as Er. fold n in Ht, Er.
  pose proof (all_lt Q M acts s HQ Hs) as Lt. fold n in Lt.
  destruct (C150_logs_on_the_wire Q M acts s order r _ HQ Ho (fun i => proj1 (proj2 (proj2 (Ht i)))) Hs) as (reqs & msgs & E & F2 & Pm & Nd & Fa & Fr).
  destruct (C32_C36_order true Q M acts s HQ Hs) as (Fifo & Nda & Acc & In1 & Out).
  assert (El : forall l : list (presource plog), concat (map (fun m => [m]) l) = l).
  { intros l. induction l as [|m l IH]; [reflexivity|]. cbn [map concat List.app]. rewrite IH. reflexivity. }
  exists (map (fun m => request_bytes log_bytes [m]) reqs), (map (fun m => [m]) reqs), msgs.
  split. { unfold log_bodies. rewrite <- Er, E, !map_map. reflexivity. }
  split.
  { rewrite !map_map. apply map_ext_in. intros m Hm. apply (in_map (@Some _)) in Hm. rewrite <- E in Hm. unfold log_requests in Hm.
    apply in_map_iff in Hm. destruct Hm as (b & Hb & _). refine (C158_logs_arrive _ _ r m (Ho b) _ Hr Hb).
    apply Forall_map, Forall_forall. intros i _. apply Ht. }
  rewrite El. split. { eapply Forall_impl; [|exact Fr]. intros m (_ & _ & X). exact X. }
  split; [exact Pm|]. split; [exact Nd|].
  split.
  { assert (G : forall i, In i (exported s) -> (i < n)%nat /\ In i (b_accepted s)).
    { intros i X. split; [apply Lt, X|]. rewrite Fifo. apply in_or_app. auto. }
    clear - F2 G Hh. induction F2 as [|i p l ps H1 H2 IH]; constructor.
    - destruct (G i (or_introl eq_refl)) as [G1 G2]. split; [exact G1|]. split; [exact G2|].
      unfold first_of in H1. destruct (Nat.ltb_spec i n); [|lia]. destruct (Hh i G1) as [T Y].
      destruct (log_handed_tells _ _ T Y) as (_ & p' & E1 & E2). rewrite E1 in H1. injection H1 as <-. exact E2.
    - apply IH. intros j Hj. apply G. right. exact Hj. }
  assert (Dis : forall i, In i (exported s) -> ~ In i (wbuf (b_worker s) ++ b_queue s)).
  { clear - Fifo Nda. rewrite Fifo in Nda. clear Fifo. revert Nda. generalize (wbuf (b_worker s) ++ b_queue s). induction (exported s) as [|x l IH]; intros w N1 i Hi Hw; [destruct Hi|].
    cbn [List.app] in N1. inversion N1 as [|? ? N2 N3]; subst. destruct Hi as [->|Hi]; [apply N2, in_or_app; auto|]. exact (IH w N3 i Hi Hw). }
  split.
  - intros i Hi. destruct (Fa i Hi) as [X|X]; [left; auto|right]. split; [|exact X]. intros Y. exact (Dis i Y X).
  - intros i o Hf Hno X. apply (Out i o Hf Hno). rewrite Fifo. apply in_or_app. auto.
Qed.
Print Assumptions C178_records_read.

(** A message is read below a scope with the record's target as its name, or the name of the
    logger if it has none (that is all the receiver is told of the scope: C117). *)
Theorem C178_records_under_their_name : forall V Q M acts s order r (stories : nat -> lstory V) data, size_ok Q -> (forall b, permutes (order b)) ->
  typed_resource r -> brun true Q M b_init acts = Some s ->
  let n := List.length (b_emits s) in
  (forall i, (i < n)%nat -> typed_lstory (stories i) /\ log_handed (stories i) = Some (data i)) ->
  forall body, In (Some body) (log_bodies order r data (b_exported s)) ->
  exists m, read_request read_log body = Some [m] /\ NoDup (map (fun g => ps_name (g_scope g)) (r_groups m)) /\
  forall g p, In g (r_groups m) -> In p (g_items g) -> exists i, (i < n)%nat /\ log_tells (stories i) p /\
    ps_name (g_scope g) = match ls_target (stories i) with Some t => t | None => KvModel.sc_name (ls_scope (stories i)) end.
Proof.
  intros V Q M acts s order r stories data HQ Ho Hr Hs n Hh body Hb.
  pose proof (all_lt Q M acts s HQ Hs) as Lt. fold n in Lt.
  unfold log_bodies in Hb. apply in_map_iff in Hb. destruct Hb as (o & Eo & Hm). destruct o as [m|]; [|discriminate]. cbn [option_map] in Eo. injection Eo as <-.
  exists m. unfold log_requests in Hm. apply in_map_iff in Hm. destruct Hm as (b & Em & Hb).
  assert (Lb : forall i, In i b -> (i < n)%nat).
  { intros i X. apply Lt. unfold BatchProps.exported. apply in_concat. eauto. }
  split.
  { refine (C158_logs_arrive _ _ r m (Ho b) _ Hr Em). apply Forall_map, Forall_forall. intros i X. destruct (Hh i (Lb i X)) as [T Y]. apply (log_handed_tells _ _ T Y). }
  destruct (C61_grouping (order b) (map data b) r (Ho b)) as (m' & keys & Em' & _ & _ & Nk & _ & F & _).
  { apply Forall_map, Forall_forall. intros i X. destruct (Hh i (Lb i X)) as [T Y]. destruct (log_handed_data _ _ Y) as (_ & _ & _ & _ & _ & _ & Eob & _). intros Z. discriminate (eq_trans (eq_sym Eob) Z). }
  rewrite Em in Em'. injection Em' as <-. split.
  - assert (E : map (fun g => ps_name (g_scope g)) (r_groups m) = keys).
    { clear - F. induction F as [|k g ks gs [E _] _ IH]; [reflexivity|]. cbn [map]. rewrite E, IH. reflexivity. }
    rewrite E. exact Nk.
  - intros g p Hg Hp.
    assert (G : exists k, g_scope g = mk_pscope k [] [] /\ Forall2 (fun x p => log_msg (fst x) = Some p) (filter (fun x => str_eqb (group_name x) k) (map data b)) (g_items g)).
    { clear - F Hg. induction F as [|k g' ks gs H1 _ IH]; [destruct Hg|]. destruct Hg as [->|Hg]; [exists k; exact H1|apply IH, Hg]. }
    destruct G as (k & Ek & Fk).
    assert (X : exists x, In x (filter (fun x => str_eqb (group_name x) k) (map data b)) /\ log_msg (fst x) = Some p).
    { clear - Fk Hp. induction Fk as [|x p' xs ps H1 _ IH]; [destruct Hp|]. destruct Hp as [->|Hp]; [exists x; split; [left; reflexivity|exact H1]|].
      destruct (IH Hp) as (y & Y1 & Y2). exists y. split; [right; exact Y1|exact Y2]. }
    destruct X as (x & Hx & Exm). apply filter_In in Hx. destruct Hx as [Hx Ekx]. apply str_eqb_eq in Ekx. apply in_map_iff in Hx. destruct Hx as (i & <- & Hi).
    destruct (Hh i (Lb i Hi)) as [T Y]. exists i. split; [apply Lb, Hi|]. destruct (log_handed_tells _ _ T Y) as (_ & p' & P1 & P2).
    rewrite P1 in Exm. injection Exm as <-. split; [exact P2|]. rewrite Ek. cbn [ps_name]. rewrite <- Ekx. unfold group_name.
    destruct (log_handed_data _ _ Y) as (_ & -> & _ & _ & -> & _). reflexivity.
Qed.
Print Assumptions C178_records_under_their_name.

(** When a flush or a shutdown called while no emit is half way answers Ok, the stories of
    all records accepted before are told (C106: not if one is half way). *)
Theorem C178_all_read_when_answered : forall V Q M (shut : bool) acts acts' s0 s1 order r (stories : nat -> lstory V) data, size_ok Q -> (forall b, permutes (order b)) ->
  typed_resource r -> brun true Q M b_init acts = Some s0 ->
  (forall i e, nth_error (b_emits s0) i = Some e -> e_pc e <> EInc true) ->
  brun true Q M s0 ((if shut then Shutdown else Flush) :: acts') = Some s1 -> ctl s1 (List.length (b_ctls s0)) shut ROk ->
  (forall i, (i < List.length (b_emits s1))%nat -> typed_lstory (stories i) /\ log_handed (stories i) = Some (data i)) ->
  exists bodies read, log_bodies order r data (b_exported s1) = map Some bodies /\ map (read_request read_log) bodies = map Some read /\
  forall i, fate s0 i OAccepted -> exists p, In p (concat (map carried (concat read))) /\ log_tells (stories i) p.
Proof.
  intros V Q M shut acts acts' s0 s1 order r stories data HQ Ho Hr H0 Hset H1 Hc Hh.
  assert (Hs : brun true Q M b_init (acts ++ (if shut then Shutdown else Flush) :: acts') = Some s1).
  { clear - H0 H1. revert H0. generalize b_init. induction acts as [|a acts IH]; intros s H0.
    - cbn [brun] in H0. injection H0 as ->. exact H1.
    - cbn [List.app brun] in *. destruct (bstep true Q M s a) as [s'|]; [apply IH, H0|discriminate]. }
  destruct (C178_records_read V Q M _ s1 order r stories data HQ Ho Hr Hs Hh) as (bodies & read & told & E1 & E2 & _ & Pm & _ & F & _).
  exists bodies, read. split; [exact E1|]. split; [exact E2|]. intros i Hi.
  pose proof (C37_complete_when_settled Q M shut acts acts' s0 s1 i HQ H0 Hset Hi H1 Hc) as X.
  assert (G : exists p, In p told /\ log_tells (stories i) p).
  { clear - F X. induction F as [|j p l ps (_ & _ & H1) _ IH]; [destruct X|]. destruct X as [->|X]; [exists p; split; [left; reflexivity|exact H1]|].
    destruct (IH X) as (q & Q1 & Q2). exists q. split; [right; exact Q1|exact Q2]. }
  destruct G as (p & P1 & P2). exists p. split; [eapply Permutation_in; [symmetry; exact Pm|exact P1]|exact P2].
Qed.
Print Assumptions C178_all_read_when_answered.

(** * The bridges *)
(** A message that tells of a record of the `log` crate: severity, text, message and key
    values; below the active span.  Likewise of an event of `tracing`. *)
Definition under_active_span {V} (cx : context span_context V) (p : plog) : Prop :=
  match cx_span cx with
  | Some sc => id_told 16 (sc_trace sc) (q_trace p) /\ id_told 8 (sc_span sc) (q_span p) /\ q_flags p = sc_flags sc
  | None => q_trace p = [] /\ q_span p = [] /\ q_flags p = 0
  end.
Lemma log_conveys_string t a : log_conveys (LString t) a -> a = PString t.
Proof. intros H. inversion H. reflexivity. Qed.
Lemma bridged {V} sc ops (cx : context span_context V) now r : bridge false [] now cx [fun r => r] ops = repeat r 1 ->
  log_handed (mk_lstory sc ops cx now) = Some (r, sc).
Proof. intros H. unfold bridge, lattr in H. cbn [andb] in H. unfold log_handed. cbn [ls_now ls_context ls_calls ls_scope]. rewrite H. reflexivity. Qed.
Lemma bridged_span {V} (st : lstory V) sc p : log_tells st p -> 
  option_map (fun t => mk_tctx (fst (fst t)) (snd (fst t)) (snd t)) (ls_trace st) = option_map (fun sc => mk_tctx (sc_trace sc) (sc_span sc) (Some (sc_flags sc))) sc ->
  sc = cx_span (ls_context st) -> under_active_span (ls_context st) p.
Proof.
  intros (_ & _ & _ & _ & _ & _ & _ & T) E ->. unfold under_active_span. destruct (ls_trace st) as [[[a b] c]|], (cx_span (ls_context st)) as [x|]; try discriminate; [|exact T].
  cbn [option_map fst snd] in E. injection E as -> -> ->. exact T.
Qed.
Theorem C178_log_crate : forall U V (conv : U -> option lany) lv args target kvs sc (cx : context span_context V) now p,
  cx_suppress cx = false -> log_tells (mk_lstory sc (log_ops conv lv args target kvs) cx now) p ->
  (exists n, q_sev p = Z.of_N n /\ first_of_range lv n) /\ q_sevtext p = of_string (text_of_level lv) /\ q_body p = Some (PString args) /\
  q_event p = [] /\ q_time p = 0%Z /\ time_told now (q_observed p) /\ (exists attrs, kept conv kvs attrs /\ Forall2 log_attr_told attrs (q_attrs p)) /\
  under_active_span cx p /\ ls_target (mk_lstory sc (log_ops conv lv args target kvs) cx now) = Some target.
Proof.
  intros U V conv lv args target kvs sc cx now p Hs Ht.
  destruct (C88_log_bridge V U false [] now cx [fun r => r] conv lv args target kvs Hs) as (r & attrs & Hb & (n & B1 & B2) & B3 & B4 & B5 & B6 & B7 & B8 & B9 & B10 & B11).
  { discriminate. } { intros q y [<-|[]]. reflexivity. }
  unfold lattr in *. set (st := mk_lstory sc (log_ops conv lv args target kvs) cx now) in *. pose proof (bridged sc _ cx now r Hb) as Hh.
  destruct (log_handed_data st _ Hh) as (_ & _ & D2 & D3 & D4 & D5 & D6 & D7 & D8 & D9 & D10). cbn [fst] in *.
  pose proof Ht as (T1 & T2 & T3 & T4 & T5 & T6 & T7 & _).
  rewrite <- D5, B7 in T1. rewrite <- D2, B9 in T3. rewrite <- D3, B6 in T4. rewrite <- D9, B1 in T5. rewrite <- D8, B3 in T6. rewrite <- D10, B4 in T7.
  split; [eauto|]. split; [exact T6|]. split. { destruct (q_body p); [|contradiction]. f_equal. apply log_conveys_string, T7. }
  split; [exact T4|]. split; [exact T1|].
  split; [exact T2|].
  split; [eauto|]. split; [|rewrite <- D4; exact B5].
  change cx with (ls_context st). eapply bridged_span; [exact Ht| |reflexivity]. rewrite <- D7. exact B11.
Qed.
Print Assumptions C178_log_crate.
Theorem C178_tracing_events : forall V lv name target fields sc (cx : context span_context V) now p,
  cx_suppress cx = false -> Forall field_ok fields -> log_tells (mk_lstory sc (tracing_ops lv name target fields) cx now) p ->
  (exists n, q_sev p = Z.of_N n /\ first_of_range lv n) /\ q_sevtext p = of_string (text_of_level lv) /\
  (exists m, last_message fields m /\ q_body p = option_map PString m) /\
  q_event p = name /\ q_time p = 0%Z /\ time_told now (q_observed p) /\
  (exists attrs, Forall2 stands_for (filter (fun f => negb (is_message f)) fields) attrs /\ Forall2 log_attr_told attrs (q_attrs p)) /\
  under_active_span cx p /\ ls_target (mk_lstory sc (tracing_ops lv name target fields) cx now) = Some target.
Proof.
  intros V lv name target fields sc cx now p Hs Hf Ht.
  destruct (C88_tracing_bridge V false [] now cx [fun r => r] lv name target fields Hs) as (r & m & Hb & (n & B1 & B2) & B3 & B4 & B4' & B5 & B6 & B7 & B8 & B9 & B11).
  { discriminate. } { intros q y [<-|[]]. reflexivity. } { exact Hf. }
  unfold lattr in *. set (st := mk_lstory sc (tracing_ops lv name target fields) cx now) in *. pose proof (bridged sc _ cx now r Hb) as Hh.
  destruct (log_handed_data st _ Hh) as (_ & _ & D2 & D3 & D4 & D5 & D6 & D7 & D8 & D9 & D10). cbn [fst] in *.
  pose proof Ht as (T1 & T2 & T3 & T4 & T5 & T6 & T7 & _).
  rewrite <- D5, B7 in T1. rewrite <- D2 in T3. rewrite <- D3, B6 in T4. rewrite <- D9, B1 in T5. rewrite <- D8, B3 in T6. rewrite <- D10, B4 in T7.
  split; [eauto|]. split; [exact T6|].
  split. { exists m. split; [exact B4'|]. destruct m; cbn [option_map] in *; destruct (q_body p); try contradiction; [|reflexivity]. f_equal. apply log_conveys_string, T7. }
  split; [exact T4|]. split; [exact T1|].
  split. { rewrite B8 in D6. injection D6 as ->. exact T2. }
  split; [eauto|]. split; [|rewrite <- D4; exact B5].
  change cx with (ls_context st). eapply bridged_span; [exact Ht| |reflexivity]. rewrite <- D7. exact B11.
Qed.
Print Assumptions C178_tracing_events.

(** * Logs belong to spans *)
(** An id is told in one way only. *)
Lemma told_alike w id a b : id_told w id a -> id_told w id b -> a = b.
Proof.
  intros (La & Fa & Ea) (Lb & Fb & Eb). rewrite <- Eb in Ea. clear Eb id. subst w. revert b Lb Fb Ea. induction a as [|x a IH] using rev_ind; intros b Lb Fb Ea.
  - destruct b; [reflexivity|discriminate].
  - destruct b as [|y b _] using rev_ind; [rewrite app_length in Lb; cbn in Lb; lia|]. rewrite !app_length in Lb. cbn [List.length] in Lb.
    rewrite !fold_left_app in Ea. cbn [fold_left] in Ea. apply Forall_app in Fa, Fb. destruct Fa as [Fa Hx], Fb as [Fb Hy]. inversion Hx; inversion Hy; subst.
    set (u := fold_left _ a 0) in *. set (v := fold_left _ b 0) in *. assert (E : u = v /\ x = y) by lia. destruct E as [E ->].
    f_equal. apply IH; [exact Fa|lia|exact Fb|exact E].
Qed.
(** A record emitted while a span is active, and not given another trace, is read with the
    trace and span ids that the span itself is read with. *)
Theorem C178_log_names_its_span : forall U V (l : lstory U) (st : story V) q p,
  cx_suppress (st_parent st) = false ->
  cx_span (ls_context l) = Some (sp_ctx (b_start_with_context (st_limits st) false (st_sampler st) (st_gen_trace st) (st_gen_span st) (st_now st) []
             (b_build (st_name st) (st_calls st)) (st_parent st))) ->
  (forall t s f, ~ In (SetTrace t s f) (ls_calls l)) ->
  log_tells l q -> tells st p -> q_trace q = p_trace p /\ q_span q = p_span p.
Proof.
  intros U V l st q p Hs Hc Hn (_ & _ & _ & _ & _ & _ & _ & T) (P1 & P2 & _).
  pose proof (C156_started_span attr V (st_limits st) (st_sampler st) (st_gen_trace st) (st_gen_span st) (st_now st) (st_name st) (st_calls st) (st_parent st) [] Hs) as HS.
  cbv zeta in HS. cbn [fold_left] in HS. set (sc := sp_ctx _) in Hc. destruct (result_of _ _ _ _ _) as [[dec extra] state]. destruct HS as (H1 & H2 & _). fold sc in H1, H2.
  assert (E : ls_trace l = Some (sc_trace sc, sc_span sc, Some (sc_flags sc))).
  { unfold ls_trace. rewrite Hc. cbn [option_map].
    assert (X : flat_map (fun o : rec_op (str * lany) lany => match (match o with SetTrace t s f => Some (t, s, f) | _ => None end) with Some x => [Some x] | None => [] end) (ls_calls l) = []).
    { clear - Hn. induction (ls_calls l) as [|o os IH]; [reflexivity|]. cbn [flat_map]. rewrite IH by (intros t s f X; apply (Hn t s f); right; exact X).
      destruct o; try reflexivity. exfalso. eapply Hn. left. reflexivity. }
    unfold latest. rewrite X. reflexivity. }
  rewrite E, H1, H2 in T. destruct T as (T1 & T2 & _). split; [exact (told_alike _ _ _ _ T1 P1)|exact (told_alike _ _ _ _ T2 P2)].
Qed.
Print Assumptions C178_log_names_its_span.

(** Two records of one logger: the first under the active span with a target, the second with
    a trace of its own and no target; both are exported by a shutdown. *)
Definition ex178 (i : nat) : lstory N :=
  if Nat.eqb i 0
  then mk_lstory (mk_scope (of_string "lib") None None [])
         [SetBody (LString (of_string "old")); SetTarget (of_string "t"); AddAttr (of_string "k", LInt 5); SetBody (LMap [(of_string "x", LList [LBool true; LInt 1])]); SetSev 9; AddAttrs [(of_string "l", LBool false)]]
         (mk_context (Some (mk_sc 7 8 1 false None)) None false) 100%Z
  else mk_lstory (mk_scope (of_string "lib") None None [])
         [SetTrace 3 4 None; SetTime 50%Z; SetObserved 60%Z; SetEvent (of_string "e"); SetSevText (of_string "INFO")] cx_new 110%Z.
Definition ex178_data (i : nat) : lrec * scope := match log_handed (ex178 i) with Some x => x | None => filler end.
Definition ex178_acts : list baction := [Emit; Emit] ++ repeat (EStep 0) 2 ++ repeat (EStep 1) 2.
Example C178_nonvacuous :
  match brun true 3 3 b_init ex178_acts with
  | Some s0 => (forall i e, nth_error (b_emits s0) i = Some e -> e_pc e <> EInc true) /\ fate s0 0 OAccepted /\ fate s0 1 OAccepted /\
    match brun true 3 3 s0 ([Shutdown; CStep 0] ++ map WStep (repeat true 8) ++ [CStep 0]) with
    | Some s => List.length (b_emits s) = 2%nat /\ b_exported s = [[0; 1]]%nat /\ ctl s 0 true ROk /\
        map (fun b => option_map (map (fun m => map (fun g => (ps_name (g_scope g), map (fun p => (q_time p, q_observed p, q_attrs p, (q_event p, q_sev p, q_sevtext p, q_body p), (q_trace p, q_span p, q_flags p))) (g_items g))) (r_groups m))) (match b with Some b => read_request read_log b | None => None end))
          (log_bodies (fun _ l => l) (mk_resource [] None) ex178_data (b_exported s))
        = [Some [[(of_string "t", [(0%Z, 100%Z, [(of_string "k", PInt 5); (of_string "l", PBool false)], ([], 9%Z, [], Some (PKvlist [(of_string "x", PArray [PBool true; PInt 1])])),
                                    (repeat 0 15 ++ [7], repeat 0 7 ++ [8], 1))]);
                  (of_string "lib", [(50%Z, 60%Z, [], (of_string "e", 0%Z, of_string "INFO", None), (repeat 0 15 ++ [3], repeat 0 7 ++ [4], 0))])]]]
    | None => False
    end
  | None => False
  end /\
  (forall i, (i < 2)%nat -> typed_lstory (ex178 i) /\ log_handed (ex178 i) = Some (ex178_data i)).
Proof.
  split.
  - match goal with |- context [brun true 3 3 b_init ex178_acts] => let l := eval vm_compute in (brun true 3 3 b_init ex178_acts) in change (brun true 3 3 b_init ex178_acts) with l end.
    cbv iota beta. split. { intros [|[|i]] e H; cbn in H; try (injection H as <-; discriminate). destruct i; discriminate. }
    split; [eexists; split; reflexivity|]. split; [eexists; split; reflexivity|].
    match goal with |- context [brun true 3 3 ?s ?a] => let l := eval vm_compute in (brun true 3 3 s a) in change (brun true 3 3 s a) with l end.
    cbv iota beta. split; [reflexivity|]. split; [reflexivity|]. split; [eexists; split; [reflexivity|split; reflexivity]|]. vm_compute. reflexivity.
  - intros i Hi. destruct i as [|[|i]]; [| |lia]; (split; [|vm_compute; reflexivity]).
    all: unfold typed_lstory.
    all: match goal with |- context [ls_attrs ?x] => let l := eval vm_compute in (ls_attrs x) in change (ls_attrs x) with l end.
    all: match goal with |- context [ls_body ?x] => let l := eval vm_compute in (ls_body x) in change (ls_body x) with l end.
    all: match goal with |- context [ls_trace ?x] => let l := eval vm_compute in (ls_trace x) in change (ls_trace x) with l end.
    all: cbn [typed_lany]; repeat match goal with |- _ /\ _ => split end; try reflexivity; try exact I; try (repeat constructor; try discriminate; try reflexivity).
Qed.
(** An event of `tracing` with a message and a field, below a span. *)
Example C178_tracing_nonvacuous :
  exists x p, log_handed (mk_lstory (mk_scope [] None None []) (tracing_ops LvWarn (of_string "event") (of_string "app") [(of_string "message", FDebug (of_string "hi")); (of_string "n", FInt 3)])
                            (mk_context (Some (mk_sc 7 8 1 false None)) None false : context span_context N) 100%Z) = Some x /\
  log_msg (fst x) = Some p /\ q_body p = Some (PString (of_string "hi")) /\ q_attrs p = [(of_string "n", PInt 3)] /\ q_sev p = 13%Z /\ q_flags p = 1.
Proof. eexists. eexists. split; [vm_compute; reflexivity|]. split; [vm_compute; reflexivity|]. repeat split. Qed.
(** The first record was emitted under the first span of C177's example. *)
Example C178_names_its_span_nonvacuous :
  cx_suppress (st_parent (ex177 0)) = false /\
  cx_span (ls_context (ex178 0)) = Some (sp_ctx (b_start_with_context (st_limits (ex177 0)) false (st_sampler (ex177 0)) (st_gen_trace (ex177 0)) (st_gen_span (ex177 0)) (st_now (ex177 0)) []
             (b_build (st_name (ex177 0)) (st_calls (ex177 0))) (st_parent (ex177 0)))) /\
  (forall t s f, ~ In (SetTrace t s f) (ls_calls (ex178 0))).
Proof. split; [reflexivity|]. split; [vm_compute; reflexivity|]. intros t s f H. cbn in H. repeat destruct H as [H|H]; try discriminate H; exact H. Qed.
