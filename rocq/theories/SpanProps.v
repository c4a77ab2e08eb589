(** Theorems for C25-C29. *)
From Coq Require Import String List NArith ZArith Bool Lia.
From Coq Require Import ZifyBool ZifyNat ZifyN.
From Verif Require Import Str StrProofs ContextModel TraceModel Carrier SamplerModel SpanModel SpanSpec SpanProofs PropProofs.
Import ListNotations.
Local Open Scope N_scope.

(** * C25: limits *)

(** Built from any builder and sampler attributes, then put through any
    operations, a recording span holds exactly the first [limit] attributes,
    events and links it was offered (each event and link with its own first
    [limit] attributes), in order, and its dropped counts are the numbers of the
    others (as 32-bit numbers). *)
Theorem C25_kept_and_dropped : forall A l psc sc (b : builder A) extra now os, exists d,
  sp_data (fold_left (fun s o => span_apply o s) os (build_recording_span l psc sc b extra now)) = Some d /\
  holds_offered l ((or_nil (sb_attrs b) ++ extra) ++ flat_map offered_attrs os)
    (builder_events b ++ flat_map offered_events os) (builder_links b ++ flat_map offered_links os) d.
Proof.
  intros. destruct (build_offered l psc sc b extra now) as (d & -> & Hd & _). rewrite apply_all. cbn [sp_data sp_limits option_map].
  eexists. split; [reflexivity|]. apply ops_offered, Hd.
Qed.
Print Assumptions C25_kept_and_dropped.

(** Sizes never exceed the limits; kept plus dropped is the number offered
    (below 2^32). *)
Theorem C25_bounds_and_totals : forall A l (oa : list A) oe ol d, holds_offered l oa oe ol d ->
  (count (sd_attrs d) <= max_attrs l /\ count (sd_events d) <= max_events l /\ count (sd_links d) <= max_links l) /\
  (forall e, In e (sd_events d) -> count (ev_attrs e) <= max_event_attrs l) /\
  (forall k, In k (sd_links d) -> count (ln_attrs k) <= max_link_attrs l) /\
  (count oa < 2 ^ 32 -> count (sd_attrs d) + sd_attrs_dropped d = count oa) /\
  (count oe < 2 ^ 32 -> count (sd_events d) + sd_events_dropped d = count oe) /\
  (count ol < 2 ^ 32 -> count (sd_links d) + sd_links_dropped d = count ol).
Proof.
  intros A l oa oe ol d (-> & -> & -> & -> & -> & ->).
  assert (Hk : forall B n (x : list B), count (keep n x) <= n /\ (count x < 2 ^ 32 -> count (keep n x) + excess n x = count x)).
  { intros B n x. unfold count, keep, excess. rewrite firstn_length. split; [lia|].
    intros H. rewrite N.mod_small by lia. lia. }
  split; [|split; [|split; [|split; [|split]]]]; rewrite ?count_map.
  - split; [apply Hk|split; apply Hk].
  - intros e (((n & t) & a) & <- & _)%in_map_iff. apply Hk.
  - intros k ((sc & a) & <- & _)%in_map_iff. apply Hk.
  - apply Hk.
  - apply Hk.
  - apply Hk.
Qed.
Print Assumptions C25_bounds_and_totals.

(** Everything else of a recording span: parent, kind and start are fixed at
    creation; the name is the last one given. *)
Theorem C25_other_fields : forall A l psc sc (b : builder A) extra now os, exists d,
  fold_left (fun s o => span_apply o s) os (build_recording_span l psc sc b extra now) = mk_span sc (Some d) l /\
  sd_parent d = sc_span psc /\ sd_kind d = match sb_kind b with Some k => k | None => INTERNAL end /\
  sd_name d = last (flat_map offered_names os) (sb_name b) /\
  sd_start d = match sb_start b with Some t => t | None => now end /\
  sd_end d = match sb_end b with Some t => t | None => sd_start d end.
Proof.
  intros. destruct (build_offered l psc sc b extra now) as (d & -> & _ & Hd). rewrite apply_all. cbn [sp_data sp_limits sp_ctx option_map].
  eexists. split; [reflexivity|].
  destruct (ops_rest l os d) as (-> & -> & -> & -> & -> & _). unfold last_or.
  destruct Hd as (? & ? & -> & ? & ? & ?). auto 8.
Qed.
Print Assumptions C25_other_fields.

Definition ex_builder : builder N :=
  mk_builder None None None (of_string "op") (Some 5%Z) None (Some [1; 2]) (Some [mk_event (of_string "e") 6%Z [1; 2; 3] 9]) None Unset None.
Definition ex_limits : limits := mk_limits 2 3 1 2 1.
Definition ex_ops : list (span_op N) :=
  [SetAttribute 4; SetAttributes [5; 6]; AddEvent (of_string "f") 7%Z []; RecordError (of_string "exception") 8%Z 1;
   AddLink sc_none [1; 2]; AddLink sc_none []; UpdateName (of_string "new"); SetStatus StatusOk].
Example C25_nonvacuous :
  sp_data (fold_left (fun s o => span_apply o s) ex_ops
     (build_recording_span ex_limits (mk_sc 7 8 1 true None) (mk_sc 7 9 1 false None) ex_builder [3] 0%Z)) =
  Some (mk_data 8 INTERNAL (of_string "new") 5%Z 5%Z [1; 2; 3] 3
     [mk_event (of_string "e") 6%Z [1; 2] 1; mk_event (of_string "f") 7%Z [] 0] 1
     [mk_link sc_none [1] 1] 1 StatusOk).
Proof. vm_compute. reflexivity. Qed.

(** * C26: ending *)

(** [d'] is [d] with end time [t]. *)
Definition finished {A} (d d' : span_data A) (t : Z) : Prop :=
  sd_end d' = t /\ sd_parent d' = sd_parent d /\ sd_kind d' = sd_kind d /\ sd_name d' = sd_name d /\
  sd_start d' = sd_start d /\ sd_attrs d' = sd_attrs d /\ sd_attrs_dropped d' = sd_attrs_dropped d /\
  sd_events d' = sd_events d /\ sd_events_dropped d' = sd_events_dropped d /\
  sd_links d' = sd_links d /\ sd_links_dropped d' = sd_links_dropped d /\ sd_status d' = sd_status d.

Section life.
Context {A P : Type} (scope : str) (procs : list P).
Implicit Types (s : span A) (acts : list (action A)).

Lemma life_app acts acts' s down : run_span scope procs down s (acts ++ acts') =
  fold_left (live scope procs) acts' (run_span scope procs down s acts).
Proof. unfold run_span. apply fold_left_app. Qed.

Lemma life_dead : forall acts s down (out : list (P * exported A)), sp_data s = None ->
  exists down', fold_left (live scope procs) acts (s, down, out) = (s, down', out).
Proof.
  induction acts as [|a acts IH]; intros s down out H; [eauto|]. cbn [fold_left live].
  destruct a.
  - unfold span_apply. rewrite H. cbn [option_map]. destruct s as [c x l]. cbn in H. subst x. apply IH. reflexivity.
  - unfold ensure_ended. rewrite H. cbn [hand_over]. rewrite app_nil_r. apply IH, H.
  - unfold ensure_ended. rewrite H. cbn [hand_over]. rewrite app_nil_r. apply IH, H.
  - apply IH, H.
Qed.

Lemma life_pre : forall pre s down (out : list (P * exported A)), (forall a, In a pre -> ends a = false) ->
  exists down', fold_left (live scope procs) pre (s, down, out) =
    (fold_left (fun s o => span_apply o s) (ops_of pre) s, down', out) /\ (down' = true <-> down = true \/ shut_in pre).
Proof.
  induction pre as [|a pre IH]; intros s down out H.
  { exists down. split; [reflexivity|]. unfold shut_in. cbn [In]. tauto. }
  assert (Hp : forall a, In a pre -> ends a = false) by (intros; apply H; right; assumption).
  specialize (H a (or_introl eq_refl)). unfold shut_in in *. cbn [fold_left live In].
  destruct a; try discriminate.
  - destruct (IH (span_apply o s) down out Hp) as (dn & -> & Hd). exists dn. split; [reflexivity|]. rewrite Hd. intuition discriminate.
  - destruct (IH s true out Hp) as (dn & -> & Hd). exists dn. split; [reflexivity|]. rewrite Hd. intuition.
Qed.
End life.

(** Whatever happens after its first end, a recording span is delivered once to
    each processor, in order, with the data as it was then, unless the provider
    had been shut down before; it stops recording. *)
Theorem C26_delivered_once : forall A P scope (procs : list P) (s : span A) d down pre e post,
  sp_data s = Some d -> (forall a, In a pre -> ends a = false) -> ends e = true ->
  exists down' d',
  let d0 := fold_left (fun d o => data_op (sp_limits s) o d) (ops_of pre) d in
  finished d0 d' (match e with
                  | End t => t
                  | DropSpan now => if (sd_end d0 =? sd_start d0)%Z then now else sd_end d0
                  | _ => 0%Z
                  end) /\
  (down = true \/ shut_in pre ->
     run_span scope procs down s (pre ++ e :: post) = (mk_span (sp_ctx s) None (sp_limits s), down', [])) /\
  (down = false /\ ~ shut_in pre ->
     run_span scope procs down s (pre ++ e :: post) =
     (mk_span (sp_ctx s) None (sp_limits s), down', map (fun p => (p, mk_exported (sp_ctx s) d' scope)) procs)).
Proof.
  intros A P scope procs s d down pre e post Hd Hpre He.
  destruct (life_pre scope procs pre s down (@nil (P * exported A)) Hpre) as (dn & Hrun & Hdn).
  set (d0 := fold_left (fun d o => data_op (sp_limits s) o d) (ops_of pre) d).
  set (s0 := fold_left (fun s o => span_apply o s) (ops_of pre) s) in *.
  assert (Hs0 : s0 = mk_span (sp_ctx s) (Some d0) (sp_limits s)).
  { unfold s0. rewrite apply_all, Hd. reflexivity. }
  set (t := match e with End t => t | DropSpan now => if (sd_end d0 =? sd_start d0)%Z then now else sd_end d0 | _ => 0%Z end).
  assert (Hend : live scope procs (s0, dn, []) e =
    (mk_span (sp_ctx s) None (sp_limits s), dn,
     if dn then [] else map (fun p => (p, mk_exported (sp_ctx s) (data_end t d0) scope)) procs)).
  { rewrite Hs0. destruct e; try discriminate; cbn [live ensure_ended sp_data sp_ctx sp_limits]; subst t; cbv iota.
    - unfold ensure_ended. cbn [sp_data sp_ctx sp_limits]. destruct dn; reflexivity.
    - unfold ensure_ended. cbn [sp_data sp_ctx sp_limits]. destruct dn; [reflexivity|].
      destruct (sd_end d0 =? sd_start d0)%Z; [reflexivity|].
      replace (data_end (sd_end d0) d0) with d0 by (destruct d0; reflexivity). reflexivity. }
  assert (Hall : exists down', run_span scope procs down s (pre ++ e :: post) =
     (mk_span (sp_ctx s) None (sp_limits s), down', if dn then [] else map (fun p => (p, mk_exported (sp_ctx s) (data_end t d0) scope)) procs)).
  { rewrite life_app. unfold run_span at 1. rewrite Hrun. fold s0. cbn [fold_left]. rewrite Hend. apply life_dead. reflexivity. }
  destruct Hall as (down' & Hall). exists down', (data_end t d0). cbv zeta. fold d0. fold t.
  split; [destruct d0; unfold finished; cbn; auto 12|]. split.
  - intros H. apply Hdn in H. rewrite H in Hall. exact Hall.
  - intros [H1 H2]. destruct dn; [|exact Hall]. destruct Hdn as [Hdn _]. destruct (Hdn eq_refl); [congruence|contradiction].
Qed.
Print Assumptions C26_delivered_once.

(** A span that is neither ended nor dropped is not delivered. *)
Theorem C26_not_ended_not_delivered : forall A P scope (procs : list P) (s : span A) down acts,
  (forall a, In a acts -> ends a = false) -> snd (run_span scope procs down s acts) = [].
Proof.
  intros. destruct (life_pre scope procs acts s down (@nil (P * exported A)) H) as (dn & Hrun & _). unfold run_span. rewrite Hrun. reflexivity.
Qed.
Print Assumptions C26_not_ended_not_delivered.

(** A non-recording span is never delivered and nothing changes it. *)
Theorem C26_non_recording_never_delivered : forall A P scope (procs : list P) (s : span A) down acts,
  is_recording s = false -> fst (fst (run_span scope procs down s acts)) = s /\ snd (run_span scope procs down s acts) = [].
Proof.
  intros A P scope procs s down acts H. unfold is_recording in H. destruct (sp_data s) eqn:E; [discriminate|].
  destruct (life_dead scope procs acts s down (@nil (P * exported A)) E) as (dn & Hr). unfold run_span. rewrite Hr. auto.
Qed.
Print Assumptions C26_non_recording_never_delivered.

Example C26_nonvacuous :
  let s := build_recording_span ex_limits (mk_sc 7 8 1 true None) (mk_sc 7 9 1 false None) ex_builder [3] 0%Z in
  run_span (of_string "lib") [true; false] false s
     [Op (SetAttribute 4); End 20%Z; Op (UpdateName []); End 30%Z; ProviderShutdown; DropSpan 40%Z] =
  (mk_span (mk_sc 7 9 1 false None) None ex_limits, true,
   let e := mk_exported (mk_sc 7 9 1 false None)
       (mk_data 8 INTERNAL (of_string "op") 5%Z 20%Z [1; 2; 3] 1 [mk_event (of_string "e") 6%Z [1; 2] 1] 0 [] 0 Unset) (of_string "lib") in
   [(true, e); (false, e)]).
Proof. vm_compute. reflexivity. Qed.

(** * C27: status *)

(** The recorded status is the strongest of the builder's and all those set:
    it is one of them and none is stronger. *)
Theorem C27_strongest : forall A l psc sc (b : builder A) extra now os d,
  sp_data (fold_left (fun s o => span_apply o s) os (build_recording_span l psc sc b extra now)) = Some d ->
  let given := sb_status b :: flat_map offered_status os in
  In (sd_status d) given /\ forall x, In x given -> weaker x (sd_status d).
Proof.
  intros A l psc sc b extra now os d. destruct (build_offered l psc sc b extra now) as (d0 & -> & _ & Hd).
  rewrite apply_all. cbn [sp_data sp_limits option_map]. intros [= <-]. cbv zeta.
  destruct (ops_rest l os d0) as (_ & _ & _ & _ & _ & ->). destruct Hd as (_ & _ & _ & _ & _ & ->). apply join_strongest.
Qed.
Print Assumptions C27_strongest.

(** That determines it; in particular Ok wins, then Error, then Unset. *)
Theorem C27_precedence : forall given s, In s given -> (forall x, In x given -> weaker x s) ->
  (s = StatusOk <-> In StatusOk given) /\
  (s = Unset <-> forall x, In x given -> x = Unset) /\
  ((exists e, s = Error e) <-> (exists e, In (Error e) given) /\ ~ In StatusOk given) /\
  forall s', In s' given -> (forall x, In x given -> weaker x s') -> s' = s.
Proof.
  intros given s Hin Hmax. split; [|split; [|split]].
  - split; [intros ->; exact Hin|]. intros H. apply Hmax in H. inversion H; reflexivity.
  - split; [intros -> x Hx; apply Hmax in Hx; inversion Hx; reflexivity|]. intros H. apply H, Hin.
  - split.
    + intros [e ->]. split; [eauto|]. intros H. apply Hmax in H. inversion H.
    + intros [[e He] Hn]. apply Hmax in He. destruct s as [|e'|]; [inversion He|eauto|contradiction].
  - intros s' H1 H2. apply weaker_antisym; auto.
Qed.
Print Assumptions C27_precedence.

(** But among errors the description kept is the greatest in string order, not
    the last one set. *)
Theorem C100_last_description_kept_refuted : ~ (forall A l (d : span_data A) e1 e2, sd_status d = Unset ->
  sd_status (data_op l (SetStatus (Error e2)) (data_op l (SetStatus (Error e1)) d)) = Error e2).
Proof.
  intros H. specialize (H N ex_limits (mk_data 0 0 [] 0 0 [] 0 [] 0 [] 0 Unset)%Z (of_string "b") (of_string "a") eq_refl).
  vm_compute in H. discriminate.
Qed.
Print Assumptions C100_last_description_kept_refuted.

Example C27_nonvacuous :
  join Unset [Error (of_string "x"); Unset; Error (of_string "a")] = Error (of_string "x") /\
  join Unset [Error (of_string "x"); StatusOk; Error (of_string "z")] = StatusOk.
Proof. split; reflexivity. Qed.

(** * C28: identity *)

Section create.
Context {A V : Type}.
Variables (l : limits) (sample : sctx V -> N -> builder A -> decision * list A * tstate)
  (gen_trace gen_span : N) (now : Z) (on_start : list (span A -> list (span_op A))).

Lemma on_start_keeps (s : span A) :
  sp_ctx (fold_left (fun s f => fold_left (fun s o => span_apply o s) (f s) s) on_start s) = sp_ctx s /\
  sp_limits (fold_left (fun s f => fold_left (fun s o => span_apply o s) (f s) s) on_start s) = sp_limits s /\
  match sp_data s, sp_data (fold_left (fun s f => fold_left (fun s o => span_apply o s) (f s) s) on_start s) with
  | Some d, Some d' => sd_parent d' = sd_parent d /\ sd_kind d' = sd_kind d /\ sd_start d' = sd_start d /\ sd_end d' = sd_end d
  | None, None => True
  | _, _ => False
  end.
Proof.
  revert s. induction on_start as [|f fs IH]; intros s; cbn [fold_left].
  - split; [reflexivity|split; [reflexivity|]]. destruct (sp_data s); auto.
  - destruct (IH (fold_left (fun s o => span_apply o s) (f s) s)) as (-> & -> & H).
    rewrite apply_all in *. cbn [sp_ctx sp_limits sp_data] in *. split; [reflexivity|split; [reflexivity|]].
    destruct (sp_data s) as [d|]; cbn [option_map] in H; [|exact H].
    destruct (sp_data _) as [d'|]; [|exact H].
    destruct (ops_rest (sp_limits s) (f s) d) as (H1 & H2 & H3 & H4 & _).
    destruct H as (-> & -> & -> & ->). auto.
Qed.

(** What the sampler, or the pre-set result, says. *)
Definition sampling (b : builder A) (parent : sctx V) (trace : N) : decision * list A * tstate :=
  match sb_sampling b with Some r => r | None => sample parent trace b end.

(** Everything about a created span's identity. *)
Lemma created_identity b parent : cx_suppress parent = false ->
  let trace := match cx_span parent with
               | Some psc => sc_trace psc
               | None => match sb_trace_id b with Some i => i | None => gen_trace end
               end in
  let parent_id := match cx_span parent with Some psc => sc_span psc | None => 0 end in
  let '(dec, extra, state) := sampling b parent trace in
  let s := start_span l false sample gen_trace gen_span now on_start b parent in
  sc_trace (sp_ctx s) = trace /\
  sc_span (sp_ctx s) = match sb_span_id b with Some i => i | None => gen_span end /\
  sc_remote (sp_ctx s) = false /\ sc_state (sp_ctx s) = state /\
  sc_flags (sp_ctx s) = match dec with
                        | RecordAndSample => with_sampled (sc_flags (cx_span_context parent)) true
                        | RecordOnly => with_sampled (sc_flags (cx_span_context parent)) false
                        | Drop => 0
                        end /\
  match sp_data s with
  | Some d => dec <> Drop /\ sd_parent d = parent_id
  | None => dec = Drop
  end.
Proof.
  intros Hsup. cbv zeta. unfold start_span, build_with_context, sampling. rewrite Hsup. cbn [orb].
  set (trace := match cx_span parent with Some psc => sc_trace psc | None => match sb_trace_id b with Some i => i | None => gen_trace end end).
  assert (Hpair : match cx_span parent with
      | Some sc => (sc_trace sc, sc)
      | None => (match sb_trace_id b with Some i => i | None => gen_trace end, sc_none) end =
      (trace, match cx_span parent with Some sc => sc | None => sc_none end)) by (unfold trace; destruct (cx_span parent); reflexivity).
  rewrite Hpair. destruct (match sb_sampling b with Some r => r | None => sample parent trace b end) as [[dec extra] state].
  assert (Hid : sc_span (match cx_span parent with Some sc => sc | None => sc_none end) = match cx_span parent with Some psc => sc_span psc | None => 0 end)
    by (destruct (cx_span parent); reflexivity).
  destruct dec.
  - match goal with |- context [fold_left _ on_start ?s] => destruct (on_start_keeps s) as (Hc & _ & Hdt) end.
    rewrite Hc. cbn [sp_data] in Hdt. cbn [sp_ctx sc_trace sc_span sc_remote sc_state sc_flags].
    destruct (sp_data _); [contradiction|]. auto 8.
  - match goal with |- context [fold_left _ on_start (build_recording_span l ?psc ?sc b extra now)] =>
      destruct (build_offered l psc sc b extra now) as (d & -> & _ & Hp & _) end.
    match goal with |- context [fold_left _ on_start ?s] => destruct (on_start_keeps s) as (Hc & _ & Hdt) end.
    rewrite Hc. cbn [sp_data] in Hdt. cbn [sp_ctx sc_trace sc_span sc_remote sc_state sc_flags].
    destruct (sp_data _) as [d'|]; [|contradiction]. destruct Hdt as (Hd1 & _). rewrite Hd1, Hp, Hid.
    repeat (split; [reflexivity|]). split; [discriminate|reflexivity].
  - match goal with |- context [fold_left _ on_start (build_recording_span l ?psc ?sc b extra now)] =>
      destruct (build_offered l psc sc b extra now) as (d & -> & _ & Hp & _) end.
    match goal with |- context [fold_left _ on_start ?s] => destruct (on_start_keeps s) as (Hc & _ & Hdt) end.
    rewrite Hc. cbn [sp_data] in Hdt. cbn [sp_ctx sc_trace sc_span sc_remote sc_state sc_flags].
    destruct (sp_data _) as [d'|]; [|contradiction]. destruct Hdt as (Hd1 & _). rewrite Hd1, Hp, Hid.
    repeat (split; [reflexivity|]). split; [discriminate|reflexivity].
Qed.
End create.

Lemma with_sampled_bits f b : N.testbit (with_sampled f b) 0 = b /\
  (f < 256 -> forall i, 0 < i -> N.testbit (with_sampled f b) i = N.testbit f i).
Proof.
  unfold with_sampled, SAMPLED. destruct b; split.
  - rewrite N.lor_spec. apply orb_true_r.
  - intros _ i Hi. rewrite N.lor_spec. replace (N.testbit 1 i) with false; [apply orb_false_r|].
    symmetry. change 1 with (2 ^ 0). apply N.pow2_bits_false. lia.
  - rewrite N.land_spec. apply andb_false_r.
  - intros Hf i Hi. rewrite N.land_spec. destruct (N.lt_ge_cases i 8).
    + replace (N.testbit 254 i) with true; [apply andb_true_r|].
      assert (i = 1 \/ i = 2 \/ i = 3 \/ i = 4 \/ i = 5 \/ i = 6 \/ i = 7) by lia.
      repeat match goal with H : _ \/ _ |- _ => destruct H as [->|H] end; subst; reflexivity.
    + replace (N.testbit f i) with false; [reflexivity|]. symmetry.
      destruct (N.eq_dec f 0) as [->|]; [apply N.bits_0|]. apply N.bits_above_log2.
      apply N.log2_lt_pow2; [lia|]. apply N.lt_le_trans with (2 ^ 8); [exact Hf|]. apply N.pow_le_mono_r; [discriminate|assumption].
Qed.

(** A span with an active parent span: the parent's trace id, the parent's span
    id as parent, whatever the builder asks for as trace id. *)
Theorem C28_child_of_parent : forall A V l sample gt gs now on_start (b : builder A) (parent : sctx V) psc,
  cx_suppress parent = false -> cx_span parent = Some psc ->
  let s := start_span l false sample gt gs now on_start b parent in
  sc_trace (sp_ctx s) = sc_trace psc /\ sc_span (sp_ctx s) = match sb_span_id b with Some i => i | None => gs end /\
  sc_remote (sp_ctx s) = false /\ forall d, sp_data s = Some d -> sd_parent d = sc_span psc.
Proof.
  intros A V l sample gt gs now on_start b parent psc Hs Hp s.
  pose proof (created_identity l sample gt gs now on_start b parent Hs) as H. rewrite Hp in H. cbv zeta in H.
  destruct (sampling sample b parent (sc_trace psc)) as [[dec extra] st]. fold s in H.
  destruct H as (-> & -> & -> & _ & _ & Hd). repeat (split; [reflexivity|]).
  intros d E. rewrite E in Hd. apply Hd.
Qed.
Print Assumptions C28_child_of_parent.

(** A root span. *)
Theorem C28_root : forall A V l sample gt gs now on_start (b : builder A) (parent : sctx V),
  cx_suppress parent = false -> cx_span parent = None ->
  let s := start_span l false sample gt gs now on_start b parent in
  sc_trace (sp_ctx s) = match sb_trace_id b with Some i => i | None => gt end /\
  sc_span (sp_ctx s) = match sb_span_id b with Some i => i | None => gs end /\
  sc_remote (sp_ctx s) = false /\ forall d, sp_data s = Some d -> sd_parent d = 0.
Proof.
  intros A V l sample gt gs now on_start b parent Hs Hp s.
  pose proof (created_identity l sample gt gs now on_start b parent Hs) as H. rewrite Hp in H. cbv zeta in H.
  destruct (sampling sample b parent _) as [[dec extra] st]. fold s in H.
  destruct H as (-> & -> & -> & _ & _ & Hd). repeat (split; [reflexivity|]).
  intros d E. rewrite E in Hd. apply Hd.
Qed.
Print Assumptions C28_root.

(** Flags, trace state and recording follow the sampling result: sampled iff
    record-and-sample, recording iff not drop; a recording span keeps the other
    seven flag bits of its parent. *)
Theorem C28_sampling_result : forall A V l sample gt gs now on_start (b : builder A) (parent : sctx V) dec extra state,
  cx_suppress parent = false ->
  let s := start_span l false sample gt gs now on_start b parent in
  sampling sample b parent (sc_trace (sp_ctx s)) = (dec, extra, state) ->
  (sampled (sp_ctx s) = true <-> dec = RecordAndSample) /\ (is_recording s = true <-> dec <> Drop) /\
  sc_state (sp_ctx s) = state /\
  (is_recording s = true -> sc_flags (cx_span_context parent) < 256 ->
     forall i, 0 < i -> N.testbit (sc_flags (sp_ctx s)) i = N.testbit (sc_flags (cx_span_context parent)) i).
Proof.
  intros A V l sample gt gs now on_start b parent dec extra state Hs s Hr.
  pose proof (created_identity l sample gt gs now on_start b parent Hs) as H. cbv zeta in H. fold s in H.
  set (trace := match cx_span parent with Some psc => sc_trace psc | None => match sb_trace_id b with Some i => i | None => gt end end) in *.
  destruct (sampling sample b parent trace) as [[dec' extra'] state'] eqn:E.
  destruct H as (Ht & _ & _ & Hst & Hf & Hd). rewrite Ht, E in Hr. injection Hr as -> -> ->.
  unfold sampled, is_recording. rewrite Hf, Hst.
  destruct (with_sampled_bits (sc_flags (cx_span_context parent)) true) as [B1 B2].
  destruct (with_sampled_bits (sc_flags (cx_span_context parent)) false) as [B3 B4].
  destruct (sp_data s); [destruct Hd as [Hd _]|subst dec];
  (split; [|split; [|split; [reflexivity|]]]).
  - destruct dec; [contradiction|rewrite B3|rewrite B1]; split; try reflexivity; discriminate.
  - tauto.
  - intros _ Hr. destruct dec; [contradiction|apply B4, Hr|apply B2, Hr].
  - split; discriminate.
  - split; [discriminate|congruence].
  - discriminate.
Qed.
Print Assumptions C28_sampling_result.

(** Trees: any chain of creations below a span, by any tracers (limits, samplers,
    id generators, processors) of live providers, keeps the trace id. *)
Inductive descends (A V : Type) (root : span_context) : span_context -> Prop :=
| d_root : descends A V root root
| d_child : forall p l sample gt gs now on_start (b : builder A) (parent : sctx V),
    descends A V root p -> cx_span parent = Some p -> cx_suppress parent = false ->
    descends A V root (sp_ctx (start_span l false sample gt gs now on_start b parent)).

Theorem C28_one_trace_id_per_tree : forall A V root sc, descends A V root sc -> sc_trace sc = sc_trace root.
Proof.
  intros A V root sc H. induction H as [|p l sample gt gs now on_start b parent _ IH Hp Hs]; [reflexivity|].
  rewrite (proj1 (C28_child_of_parent A V l sample gt gs now on_start b parent p Hs Hp)). exact IH.
Qed.
Print Assumptions C28_one_trace_id_per_tree.

(** With ParentBased samplers (around any delegates) the whole tree below a span
    is sampled, and recorded, or none of it is. *)
Definition parent_based {A V} (sample : sctx V -> N -> builder A -> decision * list A * tstate) : Prop :=
  exists d : sampler V (builder A), forall p t b, fst (fst (sample p t b)) = decide (ParentBased d) (Some p) t b.
Inductive descends_pb (A V : Type) (root : span_context) : span A -> Prop :=
| pb_child : forall p l sample gt gs now on_start (b : builder A) (parent : sctx V),
    p = root \/ (exists s, descends_pb A V root s /\ p = sp_ctx s) ->
    parent_based sample -> sb_sampling b = None -> cx_span parent = Some p -> cx_suppress parent = false ->
    descends_pb A V root (start_span l false sample gt gs now on_start b parent).

Theorem C28_parent_based_tree : forall A V root (s : span A), descends_pb A V root s ->
  sampled (sp_ctx s) = sampled root /\ is_recording s = sampled root.
Proof.
  intros A V root. fix IH 2. intros s H. destruct H as [p l sample gt gs now on_start b parent Hp Hpb Hb Hcx Hs].
  assert (Hps : sampled p = sampled root).
  { destruct Hp as [->|(s' & Hs' & ->)]; [reflexivity|exact (proj1 (IH s' Hs'))]. }
  clear IH. destruct Hpb as [d Hdec]. set (s := start_span l false sample gt gs now on_start b parent).
  destruct (sampling sample b parent (sc_trace (sp_ctx s))) as [[dec extra] state] eqn:E.
  destruct (C28_sampling_result A V l sample gt gs now on_start b parent dec extra state Hs E) as (H1 & H2 & _).
  fold s in H1, H2. unfold sampling in E. rewrite Hb in E.
  specialize (Hdec parent (sc_trace (sp_ctx s)) b). rewrite E in Hdec. cbn [fst] in Hdec.
  assert (Hdec' : dec = if sampled p then RecordAndSample else Drop).
  { rewrite Hdec. cbn [decide]. unfold has_active_span, cx_span_context. rewrite Hcx. cbv iota. rewrite ?Hcx.
    unfold sc_is_sampled, sampled. destruct (PropProofs.has_flag_bits (sc_flags p)) as (_ & _ & ->). reflexivity. }
  rewrite <- Hps. rewrite Hdec' in H1, H2. split.
  - destruct (sampled p); [apply H1; reflexivity|]. destruct (sampled (sp_ctx s)); [|reflexivity]. discriminate (proj1 H1 eq_refl).
  - destruct (sampled p); [apply H2; discriminate|]. destruct (is_recording s); [|reflexivity]. destruct (proj1 H2 eq_refl); reflexivity.
Qed.
Print Assumptions C28_parent_based_tree.

(** Under suppression or after shutdown: an empty, non-recording span. *)
Theorem C28_suppressed_or_shut_down : forall A V l down sample gt gs now on_start (b : builder A) (parent : sctx V),
  cx_suppress parent = true \/ down = true ->
  let s := start_span l down sample gt gs now on_start b parent in
  is_recording s = false /\ sp_ctx s = sc_none.
Proof.
  intros A V l down sample gt gs now on_start b parent H. unfold start_span, build_with_context.
  destruct H as [-> | ->]; [|destruct (cx_suppress parent)]; split; reflexivity.
Qed.
Print Assumptions C28_suppressed_or_shut_down.

Definition ex_parent : sctx N := mk_context (Some (mk_sc 77 8 3 true None)) None false.
Definition ex_root : sctx N := mk_context None None false.
Definition ex_sample : sctx N -> N -> builder N -> decision * list N * tstate :=
  fun p t b => (decide (ParentBased AlwaysOn) (Some p) t b, [], None).
Example C28_nonvacuous :
  sp_ctx (start_span ex_limits false ex_sample 5 6 0%Z [fun _ => [SetAttribute 9]] ex_builder ex_parent) = mk_sc 77 6 3 false None /\
  sp_ctx (start_span ex_limits false ex_sample 5 6 0%Z [] ex_builder ex_root) = mk_sc 5 6 1 false None /\
  parent_based ex_sample.
Proof. split; [vm_compute; reflexivity|]. split; [vm_compute; reflexivity|]. exists AlwaysOn. reflexivity. Qed.

(** * C29: valid identifiers *)

(** False in general: an active span that is itself invalid (for instance a
    span created under suppression, or by a provider that was shut down) passes
    its zero trace id to recorded, exported children. *)
Theorem C101_recording_spans_valid_refuted : ~ (forall A V l sample gt gs now (b : builder A) (parent : sctx V),
  gt <> 0 -> gs <> 0 -> sb_trace_id b = None -> sb_span_id b = None ->
  is_recording (start_span l false sample gt gs now [] b parent) = true ->
  sc_trace (sp_ctx (start_span l false sample gt gs now [] b parent)) <> 0).
Proof.
  intros H.
  pose (suppressed := start_span ex_limits false ex_sample 5 6 0%Z [] ex_builder (mk_context None None true : sctx N)).
  specialize (H N N ex_limits (fun _ _ _ => (RecordAndSample, [], None)) 5 6 0%Z ex_builder (mk_context (Some (sp_ctx suppressed)) None false)).
  refine (H _ _ eq_refl eq_refl _ _); [discriminate|discriminate|reflexivity|reflexivity].
Qed.
Print Assumptions C101_recording_spans_valid_refuted.

(** True when the active span, if any, has a valid trace id. *)
Theorem C29_valid_below_valid_parent : forall A V l sample gt gs now on_start (b : builder A) (parent : sctx V),
  gt <> 0 -> gs <> 0 -> sb_trace_id b <> Some 0 -> sb_span_id b <> Some 0 ->
  (forall sc, cx_span parent = Some sc -> sc_trace sc <> 0) ->
  cx_suppress parent = false ->
  let s := start_span l false sample gt gs now on_start b parent in
  sc_trace (sp_ctx s) <> 0 /\ sc_span (sp_ctx s) <> 0.
Proof.
  intros A V l sample gt gs now on_start b parent H1 H2 H3 H4 Hp Hs s.
  assert (Hspan : match sb_span_id b with Some i => i | None => gs end <> 0).
  { destruct (sb_span_id b) as [i|]; [|exact H2]. intros ->. apply H4. reflexivity. }
  destruct (cx_span parent) as [psc|] eqn:E.
  - destruct (C28_child_of_parent A V l sample gt gs now on_start b parent psc Hs E) as (Ht & Hi & _).
    fold s in Ht, Hi. rewrite Ht, Hi. split; [apply Hp; reflexivity|exact Hspan].
  - destruct (C28_root A V l sample gt gs now on_start b parent Hs E) as (Ht & Hi & _).
    fold s in Ht, Hi. rewrite Ht, Hi. split; [|exact Hspan].
    destruct (sb_trace_id b) as [i|]; [|exact H1]. intros ->. apply H3. reflexivity.
Qed.
Print Assumptions C29_valid_below_valid_parent.

Example C29_nonvacuous : cx_suppress ex_parent = false /\ (forall sc, cx_span ex_parent = Some sc -> sc_trace sc <> 0) /\
  is_recording (start_span ex_limits false ex_sample 5 6 0%Z [] ex_builder ex_parent) = true.
Proof. split; [reflexivity|]. split; [intros sc [= <-]; discriminate|vm_compute; reflexivity]. Qed.
