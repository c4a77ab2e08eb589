(** Theorems for C156 and C157: what a span builder is told and what the span
    it starts holds. *)
From Coq Require Import String List NArith ZArith Bool Lia.
From Verif Require Import Str StrProofs ContextModel TraceModel Carrier SamplerModel SpanModel SpanSpec SpanProofs SpanProps BuilderModel.
Import ListNotations.
Local Open Scope N_scope.

(** The last answer of [f] along a list of calls. *)
Fixpoint last_given {C X : Type} (f : C -> option X) (calls : list C) : option X :=
  match calls with
  | [] => None
  | c :: rest => match last_given f rest with Some x => Some x | None => f c end
  end.
Definition or {X : Type} (d : X) (o : option X) : X := match o with Some x => x | None => d end.

(** What each call gives. *)
Section given.
Context {A : Type}.
Definition g_trace (c : bcall A) := match c with WithTraceId x => Some x | _ => None end.
Definition g_span (c : bcall A) := match c with WithSpanId x => Some x | _ => None end.
Definition g_kind (c : bcall A) := match c with WithKind x => Some x | _ => None end.
Definition g_start (c : bcall A) := match c with WithStartTime x => Some x | _ => None end.
Definition g_end (c : bcall A) := match c with WithEndTime x => Some x | _ => None end.
Definition g_attrs (c : bcall A) := match c with WithAttributes x => Some x | _ => None end.
Definition g_events (c : bcall A) := match c with WithEvents x => Some x | _ => None end.
Definition g_links (c : bcall A) := match c with WithLinks x => Some x | _ => None end.
Definition g_status (c : bcall A) := match c with WithStatus x => Some x | _ => None end.
Definition g_sampling (c : bcall A) := match c with WithSamplingResult x => Some x | _ => None end.
(** Links to a real span: neither id is zero. *)
Definition real (k : link A) : bool := negb (sc_trace (ln_sc k) =? 0) && negb (sc_span (ln_sc k) =? 0).
End given.

Lemma last_snoc {C X} (f : C -> option X) calls c :
  last_given f (calls ++ [c]) = match f c with Some x => Some x | None => last_given f calls end.
Proof.
  induction calls as [|d calls IH]; cbn [last_given List.app]; [destruct (f c); reflexivity|].
  rewrite IH. destruct (f c); reflexivity.
Qed.

Lemma real_valid {A} (x : list (link A)) : filter (fun j => sc_is_valid (ln_sc j)) x = filter real x.
Proof. reflexivity. Qed.

(** Each field is that of the last call for it; calls for other fields do not
    matter; [with_links] keeps the links to real spans, in order. *)
Theorem C156_last_call_wins : forall A name (calls : list (bcall A)),
  b_build name calls =
  mk_builder (last_given g_trace calls) (last_given g_span calls) (last_given g_kind calls) name
    (last_given g_start calls) (last_given g_end calls)
    (last_given g_attrs calls) (last_given g_events calls) (option_map (filter real) (last_given g_links calls))
    (or Unset (last_given g_status calls)) (last_given g_sampling calls).
Proof.
  intros A name calls. unfold b_build. induction calls as [|c calls IH] using rev_ind; [reflexivity|].
  rewrite fold_left_app, IH. cbn [fold_left]. rewrite !last_snoc. destruct c; reflexivity.
Qed.
Print Assumptions C156_last_call_wins.

(** Hence calls for different fields can be made in any order. *)
Definition field {A} (c : bcall A) : N :=
  match c with
  | WithTraceId _ => 0 | WithSpanId _ => 1 | WithKind _ => 2 | WithStartTime _ => 3 | WithEndTime _ => 4
  | WithAttributes _ => 5 | WithEvents _ => 6 | WithLinks _ => 7 | WithStatus _ => 8 | WithSamplingResult _ => 9
  end.
Theorem C156_any_order : forall A name (pre post : list (bcall A)) c d, field c <> field d ->
  b_build name (pre ++ c :: d :: post) = b_build name (pre ++ d :: c :: post).
Proof.
  intros A name pre post c d H. unfold b_build. rewrite !fold_left_app. cbn [fold_left]. f_equal.
  destruct (fold_left b_apply pre (from_name name)); destruct c, d; try reflexivity; exfalso; apply H; reflexivity.
Qed.
Print Assumptions C156_any_order.

(** The span started from the builder, under a live provider and a context that
    does not suppress telemetry.  The sampler, unless a result was given, is
    shown the context, the trace id the span will have, the name, the kind
    (Internal if none was given) and the attributes and links given.  If it says
    so the span records; then it holds what was given, within the limits, with
    the sampler's attributes after the given ones, and whatever is done to it
    after that comes after. *)
Section started.
Context {A V : Type}
  (l : limits) (smp : sctx V -> N -> str -> N -> list A -> list (link A) -> decision * list A * tstate)
  (gt gs : N) (now : Z) (name : str) (calls : list (bcall A)) (parent : sctx V).

Definition links_asked : list (link A) := filter real (or [] (last_given g_links calls)).
Definition trace_of : N :=
  match cx_span parent with Some psc => sc_trace psc | None => or gt (last_given g_trace calls) end.
Definition result_of : decision * list A * tstate :=
  match last_given g_sampling calls with
  | Some r => r
  | None => smp parent trace_of name (or INTERNAL (last_given g_kind calls)) (or [] (last_given g_attrs calls)) links_asked
  end.
End started.

Theorem C156_started_span : forall A V l smp gt gs now name (calls : list (bcall A)) (parent : sctx V) os,
  cx_suppress parent = false ->
  let s := fold_left (fun s o => span_apply o s) os (b_start_with_context l false smp gt gs now [] (b_build name calls) parent) in
  let '(dec, extra, state) := result_of smp gt name calls parent in
  sc_trace (sp_ctx s) = trace_of gt calls parent /\ sc_span (sp_ctx s) = or gs (last_given g_span calls) /\
  sc_state (sp_ctx s) = state /\ sc_remote (sp_ctx s) = false /\
  match sp_data s with
  | None => dec = Drop
  | Some d =>
    dec <> Drop /\
    holds_offered l
      ((or [] (last_given g_attrs calls) ++ extra) ++ flat_map offered_attrs os)
      (map (fun e => (ev_name e, ev_time e, ev_attrs e)) (or [] (last_given g_events calls)) ++ flat_map offered_events os)
      (map (fun k => (ln_sc k, ln_attrs k)) (links_asked calls) ++ flat_map offered_links os) d /\
    sd_parent d = match cx_span parent with Some psc => sc_span psc | None => 0 end /\
    sd_kind d = or INTERNAL (last_given g_kind calls) /\
    sd_name d = last (flat_map offered_names os) name /\
    sd_start d = or now (last_given g_start calls) /\
    sd_end d = or (sd_start d) (last_given g_end calls) /\
    (flat_map offered_status os = [] -> sd_status d = or Unset (last_given g_status calls))
  end.
Proof.
  intros A V l smp gt gs now name calls parent os Hs.
  unfold b_start_with_context. rewrite C156_last_call_wins.
  set (b := mk_builder _ _ _ _ _ _ _ _ _ _ _).
  pose proof (created_identity l (shown smp) gt gs now [] b parent Hs) as Hid. cbv zeta in Hid.
  assert (Hl : or [] (sb_links b) = links_asked calls).
  { unfold b, links_asked. cbn [sb_links]. destruct (last_given g_links calls); reflexivity. }
  assert (Hr : sampling (shown smp) b parent (trace_of gt calls parent) = result_of smp gt name calls parent).
  { unfold sampling, result_of, shown. unfold b at 1. cbn [sb_sampling].
    destruct (last_given g_sampling calls); [reflexivity|]. rewrite <- Hl. reflexivity. }
  assert (Ht : trace_of gt calls parent = match cx_span parent with
     | Some psc => sc_trace psc | None => match sb_trace_id b with Some i => i | None => gt end end) by reflexivity.
  rewrite <- Ht, Hr in Hid. destruct (result_of smp gt name calls parent) as [[dec extra] state] eqn:Er.
  rewrite apply_all. cbv zeta. cbn [sp_ctx sp_data].
  destruct Hid as (H1 & H2 & H3 & H4 & _ & H5).
  split; [exact H1|]. split; [exact H2|]. split; [exact H4|]. split; [exact H3|].
  set (s0 := start_span _ _ _ _ _ _ _ _ _) in *.
  assert (H0 : sp_data s0 = None \/ exists psc sc, s0 = build_recording_span l psc sc b extra now).
  { unfold s0, start_span. rewrite Hs. cbn [orb fold_left]. unfold build_with_context. rewrite Hs.
    rewrite Ht in Hr. unfold sampling in Hr. destruct (cx_span parent) as [psc|]; cbv beta iota zeta.
    all: rewrite Hr; destruct dec; [left; reflexivity|right; eexists; eexists; reflexivity..]. }
  destruct H0 as [H0|(psc & sc & H0)].
  { rewrite H0 in H5 |- *. exact H5. }
  destruct (build_offered l psc sc b extra now) as (d & Hb & Hd & Hp & Hk & Hn & Hst & He & Hu).
  rewrite H0, Hb in H5 |- *. cbn [sp_data sp_limits option_map] in H5 |- *.
  split; [apply H5|].
  split. { apply ops_offered. unfold builder_events, builder_links in Hd.
    change (or_nil (sb_links b)) with (or [] (sb_links b)) in Hd. rewrite Hl in Hd. exact Hd. }
  destruct (ops_rest l os d) as (-> & -> & -> & -> & -> & Hj). unfold last_or. rewrite Hn, Hst.
  split; [apply H5|]. split; [exact Hk|]. split; [reflexivity|]. split; [reflexivity|].
  split. { rewrite He, Hst. reflexivity. }
  intros Hno. rewrite Hj, Hno, Hu. reflexivity.
Qed.
Print Assumptions C156_started_span.

(** [start] and [Tracer::start] are the same under the thread's current context;
    a span started by name alone has that name and nothing else. *)
Theorem C156_start_forms : forall A V l down smp gt gs now on_start (t : thread (sctx V)) name (calls : list (bcall A)),
  b_start l down smp gt gs now on_start t (b_build name calls) =
    b_start_with_context l down smp gt gs now on_start (b_build name calls) (th_current t) /\
  t_start l down smp gt gs now on_start t name = b_start l down smp gt gs now on_start t (@b_build A name []).
Proof. intros. split; reflexivity. Qed.
Print Assumptions C156_start_forms.

Definition ex_smp (p : sctx N) (t : N) (n : str) (k : N) (a : list N) (ls : list (link N)) : decision * list N * tstate :=
  (RecordAndSample, [t; k; N.of_nat (length a); N.of_nat (length ls)], None).
Definition ex_calls : list (bcall N) :=
  [WithKind 1; WithAttributes [7]; WithTraceId 99; WithLinks [mk_link (mk_sc 5 6 1 false None) [1] 0; mk_link sc_none [2] 0];
   WithAttributes [8; 9]; WithStartTime 3%Z; WithStatus (Error (of_string "e")); WithEvents [event_with_name (of_string "ev") 4%Z]].
Example C156_nonvacuous :
  b_start_with_context default_limits false ex_smp 11 12 100%Z [] (b_build (of_string "op") ex_calls) cx_new =
  mk_span (mk_sc 99 12 1 false None)
    (Some (mk_data 0 1 (of_string "op") 3%Z 3%Z [8; 9; 99; 1; 2; 1] 0 [mk_event (of_string "ev") 4%Z [] 0] 0
             [mk_link (mk_sc 5 6 1 false None) [1] 0] 0 (Error (of_string "e")))) default_limits.
Proof. vm_compute. reflexivity. Qed.
Example C156_start_nonvacuous :
  sp_ctx (t_start default_limits false ex_smp 11 12 100%Z [] (th_init (cx_with_span (mk_sc 5 6 1 true None) cx_new)) (of_string "op"))
  = mk_sc 5 12 1 false None.
Proof. vm_compute. reflexivity. Qed.

(** * C157: nothing given to the builder disappears uncounted *)

(** Full statement: every link given to the builder that the span does not keep
    is counted in its [dropped_count].  [with_links] drops links without a valid
    span context before they are counted; [Span::add_link] records the same
    link. *)
Theorem C157_links_kept_or_counted_refuted : ~ (forall A V l smp gt gs now name (ls : list (link A)) (parent : sctx V) d,
  cx_suppress parent = false -> N.of_nat (length ls) < 2 ^ 32 ->
  sp_data (b_start_with_context l false smp gt gs now [] (b_build name [WithLinks ls]) parent) = Some d ->
  N.of_nat (length (sd_links d)) + sd_links_dropped d = N.of_nat (length ls)).
Proof.
  intros H. specialize (H N N default_limits ex_smp 1 2 0%Z [] [mk_link sc_none [5] 0] cx_new _ eq_refl eq_refl eq_refl).
  vm_compute in H. discriminate.
Qed.
Print Assumptions C157_links_kept_or_counted_refuted.

Theorem C157_same_as_add_link_refuted : ~ (forall A V l smp gt gs now name sc (a : list A) (parent : sctx V),
  cx_suppress parent = false ->
  sp_data (b_start_with_context l false (fun p t n k a _ => smp p t n k a) gt gs now [] (b_build name [WithLinks [mk_link sc a 0]]) parent) =
  sp_data (span_apply (AddLink sc a) (b_start_with_context l false (fun p t n k a _ => smp p t n k a) gt gs now [] (b_build name []) parent))).
Proof.
  intros H. specialize (H N N default_limits (fun p t n k a => ex_smp p t n k a []) 1 2 0%Z [] sc_none [5] cx_new eq_refl).
  vm_compute in H. discriminate.
Qed.
Print Assumptions C157_same_as_add_link_refuted.

(** Full statement: attributes that the maker of an event or a link says were
    already dropped are still counted as dropped in the span.  The given count is
    overwritten by the number the span's own limit removes. *)
Theorem C157_given_counts_kept_refuted : ~ (forall A V l smp gt gs now name (e : event A) (parent : sctx V) d e',
  cx_suppress parent = false ->
  sp_data (b_start_with_context l false smp gt gs now [] (b_build name [WithEvents [e]]) parent) = Some d ->
  sd_events d = [e'] -> ev_dropped e <= ev_dropped e').
Proof.
  intros H. specialize (H N N default_limits ex_smp 1 2 0%Z [] (mk_event [] 0%Z [1] 3) cx_new _ _ eq_refl eq_refl eq_refl).
  vm_compute in H. apply H. reflexivity.
Qed.
Print Assumptions C157_given_counts_kept_refuted.

(** What does hold: with valid links, none disappears uncounted, and the builder
    is as good as [add_link]. *)
Theorem C157_valid_links_kept_or_counted_partial : forall A V l smp gt gs now name (calls : list (bcall A)) (parent : sctx V) d,
  let ls := or [] (last_given g_links calls) in
  cx_suppress parent = false -> N.of_nat (length ls) < 2 ^ 32 -> (forall k, In k ls -> real k = true) ->
  sp_data (b_start_with_context l false smp gt gs now [] (b_build name calls) parent) = Some d ->
  N.of_nat (length (sd_links d)) + sd_links_dropped d = N.of_nat (length ls) /\
  map ln_sc (sd_links d) = firstn (N.to_nat (max_links l)) (map ln_sc ls).
Proof.
  intros A V l smp gt gs now name calls parent d ls Hs Hn Hv Hd.
  pose proof (C156_started_span A V l smp gt gs now name calls parent [] Hs) as H. cbv zeta in H. cbn [fold_left] in H.
  rewrite Hd in H. destruct (result_of smp gt name calls parent) as [[dec extra] state].
  destruct H as (_ & _ & _ & _ & _ & H & _).
  assert (Hf : links_asked calls = ls).
  { unfold links_asked. fold ls. clear -Hv. induction ls as [|k ls IH]; [reflexivity|]. cbn [filter].
    rewrite (Hv k (or_introl eq_refl)). f_equal. apply IH. intros j Hj. apply Hv. right. exact Hj. }
  rewrite Hf in H. cbn [flat_map] in H. rewrite !app_nil_r in H. split.
  - apply C25_bounds_and_totals in H. destruct H as (_ & _ & _ & _ & _ & H). unfold count in H. rewrite map_length in H. apply H, Hn.
  - destruct H as (_ & _ & _ & _ & -> & _). unfold keep. rewrite firstn_map, !map_map, firstn_map. reflexivity.
Qed.
Print Assumptions C157_valid_links_kept_or_counted_partial.
