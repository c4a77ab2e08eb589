(** C150: from ended spans and emitted log records to OTLP requests - the batch processors
    (BatchModel.v) together with the conversion of their batches (OtlpModel.v). *)
From Coq Require Import List Arith ZArith NArith Bool Lia Permutation.
From Verif Require Import Str TraceModel TraceProofs TraceProps SpanModel AttrModel AttrProofs KvModel LogModel OtlpModel ProviderModel BatchModel BatchProofs BatchProps OtlpProps.
Import ListNotations.

(** The requests made by a batch span processor with an OTLP exporter
    (opentelemetry-sdk/src/trace/span_processor.rs:452-510 handing each batch to
    opentelemetry-otlp/src/exporter/http/mod.rs:290-308 or tonic/trace.rs:70-80, which
    convert it with [group_spans_by_resource_and_scope]): one per batch.  [data i] is what
    the i-th call of [on_end] was given; [order] is the iteration order of the map of
    scopes, which may differ from batch to batch. *)
Definition trace_requests (same : scope -> scope -> bool) (order : list nat -> list (scope * list sdata) -> list (scope * list sdata))
    (r : OtlpModel.resource) (data : nat -> sdata) (batches : list (list nat)) : list (presource pspan) :=
  map (fun b => spans_msg same (order b) (map data b) r) batches.
(** The same for log records (batch_log_processor.rs:360-544, exporter/http/mod.rs:309-330); [None]
    is a panic of the conversion. *)
Definition log_requests (order : list nat -> list (str * list (lrec * scope)) -> list (str * list (lrec * scope)))
    (r : OtlpModel.resource) (data : nat -> lrec * scope) (batches : list (list nat)) : list (option (presource plog)) :=
  map (fun b => logs_msg (order b) (map data b) r) batches.

Lemma sub_in : forall A (l m : list A) x, sub l m -> In x l -> In x m.
Proof. intros A l m x H. induction H; cbn; [auto|auto|intros [<-|]; auto]. Qed.

(** What is in a request. *)
Definition carried {A} (m : presource A) : list A := concat (map g_items (r_groups m)).

(** Spans have identities of their own: of the first [n] calls, distinct ones bring spans
    with distinct ids. *)
Definition ids_differ (n : nat) (data : nat -> sdata) : Prop := forall i j, i < n -> j < n ->
  sc_trace (d_ctx (data i)) = sc_trace (d_ctx (data j)) -> sc_span (d_ctx (data i)) = sc_span (d_ctx (data j)) -> i = j.
Definition ids_in_range (n : nat) (data : nat -> sdata) : Prop := forall i, i < n ->
  (sc_trace (d_ctx (data i)) < 2 ^ 128)%N /\ (sc_span (d_ctx (data i)) < 2 ^ 64)%N.

Lemma messages_differ n data i j : ids_differ n data -> ids_in_range n data -> i < n -> j < n -> span_msg (data i) = span_msg (data j) -> i = j.
Proof.
  intros Hd Hr Hi Hj H. apply Hd; [exact Hi|exact Hj| |].
  - apply (f_equal p_trace) in H. cbn [span_msg p_trace] in H.
    rewrite <- (proj1 (C12_trace_id_roundtrip _ (proj1 (Hr i Hi)))), <- (proj1 (C12_trace_id_roundtrip _ (proj1 (Hr j Hj)))), H. reflexivity.
  - apply (f_equal p_span) in H. cbn [span_msg p_span] in H.
    rewrite <- (proj1 (C12_span_id_roundtrip _ (proj2 (Hr i Hi)))), <- (proj1 (C12_span_id_roundtrip _ (proj2 (Hr j Hj)))), H. reflexivity.
Qed.

Section spans.
Context (same : scope -> scope -> bool) (order : list nat -> list (scope * list sdata) -> list (scope * list sdata))
  (r : OtlpModel.resource) (data : nat -> sdata) (Ho : forall b, permutes (order b)).
Notation reqs := (trace_requests same order r data).

Lemma carried_all bs : Permutation (concat (map carried (reqs bs))) (map (fun i => span_msg (data i)) (concat bs)).
Proof using Ho.
  induction bs as [|b bs IH]; [constructor|]. cbn [trace_requests map concat]. rewrite map_app. apply Permutation_app; [|exact IH].
  unfold carried. eapply perm_trans; [apply C60_every_span_once, Ho|]. rewrite map_map. apply Permutation_refl.
Qed.
End spans.

(** What goes over the wire: all requests together carry exactly the spans exported, each
    once and none twice; no request is empty or larger than the batch size; each carries
    the resource. *)
Theorem C150_spans_on_the_wire : forall Q M acts s same order r data, size_ok Q -> (forall b, permutes (order b)) ->
  brun false Q M b_init acts = Some s -> let n := length (b_emits s) in ids_differ n data -> ids_in_range n data ->
  let reqs := trace_requests same order r data (b_exported s) in
  let wire := concat (map carried reqs) in
  NoDup wire /\
  (* an accepted span is on the wire, or still waiting; a span turned away is not *)
  (forall i, fate s i OAccepted -> In (span_msg (data i)) wire \/ In i (wbuf (b_worker s) ++ b_queue s)) /\
  (forall i, i < n -> In (span_msg (data i)) wire -> exists e, nth_error (b_emits s) i = Some e /\ e_late e = false) /\
  (forall i o, fate s i o -> o <> OAccepted -> ~ In (span_msg (data i)) wire) /\
  (forall i, In i (wbuf (b_worker s) ++ b_queue s) -> ~ In (span_msg (data i)) wire) /\
  (* nothing else is *)
  (forall m, In m wire -> exists i, m = span_msg (data i) /\ In i (b_accepted s)) /\
  Forall (fun m => carried m <> [] /\ (0 < M -> length (carried m) <= M) /\
            r_rattrs m = attrs_msg (re_attrs r) /\ r_rurl m = or_empty (re_url r)) reqs.
Proof.
  intros Q M acts s same order r data HQ Ho H n Hd Hr reqs wire.
  destruct (C32_C36_order false Q M acts s HQ H) as (Fifo & Nd & Acc & In1 & Out).
  destruct (C32_C36_bounds false Q M acts s HQ H) as (_ & Bnd).
  pose proof (carried_all same order r data Ho (b_exported s)) as P. fold reqs in P. fold wire in P. change (concat (b_exported s)) with (exported s) in P.
  assert (Inj : forall i j, i < n -> j < n -> span_msg (data i) = span_msg (data j) -> i = j) by (intros i j; apply messages_differ; assumption).
  assert (Lt : forall i, In i (b_accepted s) -> i < n).
  { intros i X. apply Acc in X. destruct X as (e & X & _). apply nth_error_Some. congruence. }
  assert (Lx : forall i, In i (exported s) -> i < n) by (intros i X; apply Lt; rewrite Fifo; apply in_or_app; auto).
  assert (W1 : forall i, i < n -> In (span_msg (data i)) wire -> In i (exported s)).
  { intros i Hi X. apply (Permutation_in _ P) in X. apply in_map_iff in X. destruct X as (j & E & X). apply Inj in E; [congruence|apply Lx, X|exact Hi]. }
  assert (W : forall i, In i (exported s) -> In (span_msg (data i)) wire).
  { intros i.
    - intros X. apply (Permutation_in _ (Permutation_sym P)). apply in_map_iff. exists i. auto. }
  rewrite Fifo in Nd. assert (Ne : NoDup (exported s)).
  { clear - Nd. induction (exported s) as [|x l IH]; [constructor|]. cbn in Nd. inversion Nd as [|? ? N1 N2]; subst. constructor; [|apply IH, N2]. intros X. apply N1, in_or_app. auto. }
  assert (Sep : forall i, In i (exported s) -> ~ In i (wbuf (b_worker s) ++ b_queue s)).
  { clear - Nd. induction (exported s) as [|x l IH]; intros i; [intros []|]. cbn in Nd. inversion Nd as [|? ? N1 N2]; subst. intros [<-|X]; [|apply IH; assumption].
    intros Y. apply N1. apply in_or_app. right. exact Y. }
  split; [|split; [|split; [|split; [|split; [|split]]]]].
  - eapply Permutation_NoDup; [apply Permutation_sym, P|]. clear - Ne Inj Lx. induction (exported s) as [|x l IH]; cbn [map]; [constructor|].
    inversion Ne as [|? ? N1 N2]; subst. constructor; [|apply IH; [intros; apply Lx; right; assumption|exact N2]]. intros X. apply in_map_iff in X. destruct X as (j & E & X).
    apply Inj in E; [subst j; contradiction|apply Lx; right; exact X|apply Lx; left; reflexivity].
  - intros i Hi. apply In1 in Hi. rewrite Fifo in Hi. apply in_app_or in Hi. destruct Hi as [Hi|Hi]; [left; apply W, Hi|right; exact Hi].
  - intros i Hl Hi. apply Acc. rewrite Fifo. apply in_or_app. left. apply W1; assumption.
  - intros i o Hf Hn Hi. apply (Out i o Hf Hn). rewrite Fifo. apply in_or_app. left. apply W1; [|exact Hi].
    destruct Hf as (e & Hf & _). apply nth_error_Some. congruence.
  - intros i Hi X. apply W1 in X; [exact (Sep i X Hi)|]. apply Lt. rewrite Fifo. apply in_or_app. auto.
  - intros m Hm. apply (Permutation_in _ P) in Hm. apply in_map_iff in Hm. destruct Hm as (i & <- & Hi). exists i. split; [reflexivity|]. rewrite Fifo. apply in_or_app. auto.
  - unfold reqs, trace_requests. apply Forall_map. apply Forall_forall. intros b Hb. destruct (Bnd b Hb) as [B1 B2].
    pose proof (C60_every_span_once same (order b) (map data b) r (Ho b)) as Pb. change (concat (map g_items (r_groups ?m))) with (carried m) in Pb.
    pose proof (Permutation_length Pb) as L. rewrite !map_length in L. fold (carried (spans_msg same (order b) (map data b) r)) in L.
    split; [intros E; rewrite E in L; destruct b; [contradiction|discriminate]|]. split; [intros HM; rewrite L; auto|]. split; reflexivity.
Qed.
Print Assumptions C150_spans_on_the_wire.

(** Each group of each request holds spans that were exported, all of scopes equal to the
    one whose name, version and attributes stand above them. *)
Theorem C150_spans_under_their_scope : forall Q M acts s srt same order r data, size_ok Q -> sorter_ok srt -> map_lookup srt same ->
  (forall b, permutes (order b)) -> brun false Q M b_init acts = Some s ->
  forall m g, In m (trace_requests same order r data (b_exported s)) -> In g (r_groups m) ->
  exists first rest, g_items g = map span_msg (first :: rest) /\
    g_scope g = mk_pscope (sc_name (d_scope first)) (or_empty (sc_version (d_scope first))) (attrs_msg (sc_attrs (d_scope first))) /\
    Forall (fun x => scope_eqb srt (d_scope x) (d_scope first) = true) rest /\
    Forall (fun x => exists i, x = data i /\ In i (exported s)) (first :: rest).
Proof.
  intros Q M acts s srt same order r data HQ Hs Hl Ho H m g Hm Hg. unfold trace_requests in Hm. apply in_map_iff in Hm. destruct Hm as (b & <- & Hb).
  destruct (C60_groups srt same (order b) (map data b) r Hs Hl (Ho b)) as (_ & _ & X). destruct (X g Hg) as (first & rest & E1 & E2 & E3 & E4).
  exists first, rest. split; [exact E1|]. split; [exact E3|]. split; [exact E4|]. apply Forall_forall. intros x Hx.
  assert (Hin : In x (map data b)) by (eapply sub_in; eassumption).
  apply in_map_iff in Hin. destruct Hin as (i & <- & Hi). exists i. split; [reflexivity|]. unfold exported. apply in_concat. eauto.
Qed.
Print Assumptions C150_spans_under_their_scope.

(** Shutting down, with no more than one batch in the queue, puts every span accepted
    before on the wire. *)
Theorem C150_shutdown_sends_the_rest : forall Q M acts acts' s0 s1 same order r data, size_ok Q -> 0 < M -> (forall b, permutes (order b)) ->
  brun false Q M b_init acts = Some s0 -> length (b_queue s0) <= M ->
  brun false Q M s0 (Shutdown :: acts') = Some s1 -> ctl s1 (length (b_ctls s0)) true ROk ->
  forall i, fate s0 i OAccepted -> In (span_msg (data i)) (concat (map carried (trace_requests same order r data (b_exported s1)))).
Proof.
  intros Q M acts acts' s0 s1 same order r data HQ HM Ho H0 Hq H1 Hc i Hi.
  destruct (C34_shutdown_exports_a_batch Q M acts acts' s0 s1 HQ HM H0 H1 Hc) as (_ & X). specialize (X Hq i Hi).
  apply (Permutation_in _ (Permutation_sym (carried_all same order r data Ho (b_exported s1)))). apply in_map_iff. exists i. auto.
Qed.
Print Assumptions C150_shutdown_sends_the_rest.

(** Log records: every batch converts, and all requests together carry, for each record
    exported, its message exactly once and nothing else. *)
Lemma forall2_concat : forall A B (R : A -> B -> Prop) (ls : list (list A)) (ms : list (list B)),
  Forall2 (Forall2 R) ls ms -> Forall2 R (concat ls) (concat ms).
Proof. intros A B R ls ms H. induction H; cbn [concat]; [constructor|apply Forall2_app; assumption]. Qed.
Lemma forall2_perm : forall A B (R : A -> B -> Prop) l l' m, Permutation l l' -> Forall2 R l m -> exists m', Permutation m m' /\ Forall2 R l' m'.
Proof.
  intros A B R l l' m P. revert m. induction P; intros m H.
  - inversion H; subst. exists []. auto.
  - inversion H; subst. destruct (IHP _ H4) as (m' & P1 & P2). exists (y :: m'). split; [apply perm_skip, P1|constructor; assumption].
  - inversion H as [|? y1 ? m1 R1 H1]; subst. inversion H1 as [|? y2 ? m2 R2 H2]; subst. exists (y2 :: y1 :: m2). split; [apply perm_swap|repeat constructor; assumption].
  - destruct (IHP1 _ H) as (m1 & A1 & A2). destruct (IHP2 _ A2) as (m2 & B1 & B2). exists m2. split; [eapply perm_trans; eassumption|assumption].
Qed.
Theorem C150_logs_on_the_wire : forall Q M acts s order r (data : nat -> lrec * scope), size_ok Q -> (forall b, permutes (order b)) ->
  (forall i, lr_observed (fst (data i)) <> None) -> brun true Q M b_init acts = Some s ->
  exists reqs msgs, log_requests order r data (b_exported s) = map Some reqs /\
    Forall2 (fun i p => log_msg (fst (data i)) = Some p) (exported s) msgs /\
    Permutation (concat (map carried reqs)) msgs /\ NoDup (exported s) /\
    (forall i, fate s i OAccepted -> In i (exported s) \/ In i (wbuf (b_worker s) ++ b_queue s)) /\
    Forall (fun m => carried m <> [] /\ (0 < M -> length (carried m) <= M) /\
              r_rattrs m = attrs_msg (re_attrs r) /\ r_rurl m = or_empty (re_url r)) reqs.
Proof.
  intros Q M acts s order r data HQ Ho Hobs H.
  destruct (C32_C36_order true Q M acts s HQ H) as (Fifo & Nd & _ & In1 & _).
  destruct (C32_C36_bounds true Q M acts s HQ H) as (_ & Bnd).
  assert (Ne : NoDup (exported s)).
  { rewrite Fifo in Nd. clear - Nd. induction (exported s) as [|x l IH]; [constructor|]. cbn in Nd. inversion Nd as [|? ? N1 N2]; subst. constructor; [|apply IH, N2]. intros X. apply N1, in_or_app. auto. }
  assert (G : forall bs, (forall b, In b bs -> b <> [] /\ (0 < M -> length b <= M)) ->
    exists reqs msgs, log_requests order r data bs = map Some reqs /\
      Forall2 (fun i p => log_msg (fst (data i)) = Some p) (concat bs) msgs /\ Permutation (concat (map carried reqs)) msgs /\
      Forall (fun m => carried m <> [] /\ (0 < M -> length (carried m) <= M) /\ r_rattrs m = attrs_msg (re_attrs r) /\ r_rurl m = or_empty (re_url r)) reqs).
  { induction bs as [|b bs IH]; intros Hb; [exists [], []; repeat split; constructor|].
    destruct (IH (fun b' H' => Hb b' (or_intror H'))) as (reqs & msgs & E1 & E2 & E3 & E4). destruct (Hb b (or_introl eq_refl)) as [B1 B2].
    destruct (C61_grouping (order b) (map data b) r (Ho b)) as (m & keys & Em & R1 & R2 & _ & _ & F & P).
    { apply Forall_map. apply Forall_forall. intros i _. apply Hobs. }
    set (R := fun (x : lrec * scope) p => log_msg (fst x) = Some p).
    assert (X : Forall2 R (concat (map (fun k => filter (fun x => str_eqb (group_name x) k) (map data b)) keys)) (carried m)).
    { apply forall2_concat. clear - F. induction F as [|k g ks gs [_ F1] F2 IHF]; cbn [map]; constructor; [exact F1|exact IHF]. }
    destruct (forall2_perm _ _ R _ _ _ P X) as (ps & Pp & Fp).
    assert (Fi : Forall2 (fun i p => log_msg (fst (data i)) = Some p) b ps).
    { clear - Fp. revert ps Fp. induction b as [|i b IHb]; intros ps F; cbn [map] in F; inversion F; subst; constructor; [assumption|apply IHb; assumption]. }
    exists (m :: reqs), (ps ++ msgs). cbn [log_requests map concat]. fold (log_requests order r data bs). rewrite Em, E1. split; [reflexivity|].
    split; [apply Forall2_app; assumption|]. split; [apply Permutation_app; assumption|]. constructor; [|exact E4].
    assert (L : length (carried m) = length b). { rewrite (Permutation_length Pp). clear - Fi. induction Fi; cbn; congruence. }
    split; [intros E; rewrite E in L; destruct b; [contradiction|discriminate]|]. split; [intros; rewrite L; auto|]. split; assumption. }
  destruct (G (b_exported s) Bnd) as (reqs & msgs & E1 & E2 & E3 & E4). exists reqs, msgs.
  split; [exact E1|]. split; [exact E2|]. split; [exact E3|]. split; [exact Ne|]. split; [|exact E4].
  intros i Hi. apply In1 in Hi. rewrite Fifo in Hi. apply in_app_or in Hi. tauto.
Qed.
Print Assumptions C150_logs_on_the_wire.

(** Two spans of different scopes, then shutdown: one request with both. *)
Definition ex_wire (i : nat) : sdata :=
  ex_sdata (N.of_nat i + 7) (if Nat.even i then mk_scope [97%N] (Some [49%N]) None [] else mk_scope [98%N] None None []).
Definition ex_ended : list baction := [Emit; Emit] ++ repeat (EStep 0) 3 ++ repeat (EStep 1) 3.
Example C150_nonvacuous :
  size_ok 3 /\
  match brun false 3 3 b_init ex_ended with
  | Some s0 => length (b_queue s0) <= 3 /\ fate s0 0 OAccepted /\ fate s0 1 OAccepted /\
    match brun false 3 3 s0 (Shutdown :: [CStep 0; CStep 0] ++ map WStep (repeat true 8) ++ [CStep 0]) with
    | Some s => b_exported s = [[0; 1]] /\ ctl s 0 true ROk /\
      map (fun m => map (fun g => (ps_name (g_scope g), map p_span (g_items g))) (r_groups m))
        (trace_requests (scope_eqb isort) (fun _ l => l) (mk_resource [] None) ex_wire (b_exported s))
      = [[([97%N], [span_id_to_bytes 7]); ([98%N], [span_id_to_bytes 8])]]
    | None => False
    end
  | None => False
  end.
Proof. split; [reflexivity|]. vm_compute. split; [repeat constructor|]. split; [eexists; split; reflexivity|]. split; [eexists; split; reflexivity|]. split; [reflexivity|]. split; [eexists; repeat split; reflexivity|]. reflexivity. Qed.
Example C150_ids : ids_differ 2 ex_wire /\ ids_in_range 2 ex_wire.
Proof.
  split; [intros i j _ _ _ H; cbn in H; lia|]. intros i Hi. destruct i as [|[|i]]; [split; reflexivity..|lia].
Qed.
