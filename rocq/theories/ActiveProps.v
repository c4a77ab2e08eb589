(** Theorems for C138-C140: the span of a context, used by several threads. *)
From Coq Require Import List NArith ZArith Bool Arith Lia.
From Verif Require Import Str TraceModel SpanModel ActiveModel ActiveProofs.
Import ListNotations.

(** The calls that thread [t] makes in a common order of calls. *)
Definition of_thread {A} (t : nat) (h : list (nat * call A)) : list (call A) := map snd (filter (fun x => Nat.eqb (fst x) t) h).
(** Whatever the threads do, whenever nobody is inside a call the span, what the processors
    were given and what is_recording has answered are as if the calls had been made one
    after the other, in an order that keeps the order of each thread. *)
Theorem C138_one_after_the_other : forall A scope down (procs : list (proc A)) s0 prog s,
  (forall t c, In c (prog t) -> quiet c) -> quiet_procs procs ->
  reach scope down procs (start true s0 prog) s -> st_lock s = None ->
  exists h, (st_span s, st_poison s, st_out s, st_seen s) = spec_run scope down procs s0 h /\
    forall t, exists rest, prog t = of_thread t h ++ rest.
Proof.
  intros A scope down procs s0 prog s Hq Hp Hr Hl. pose proof (inv_reach scope down procs s0 prog Hq Hp s Hr) as Hi.
  destruct Hi as [_ _ E Hc|t pend k _ Hk]; [|congruence]. exists (st_hist s). split; [exact E|].
  intros t. destruct (Hc t) as [cs [_ [Hcs|[_ [_ [cs' Hcs]]]]]]; eexists; exact Hcs.
Qed.
Print Assumptions C138_one_after_the_other.

(** ** When nothing panics, it is the life of a span that one thread owns. *)
Section calm.
Context {A : Type} (scope : str) (down : bool) (procs : list (proc A)).
Lemma calm_reached : calm_procs procs -> reached procs = map p_id procs /\ existsb p_panics procs = false.
Proof.
  unfold calm_procs. induction 1 as [|p ps Hp _ [IH1 IH2]]; [split; reflexivity|]. cbn. rewrite Hp, IH1, IH2. split; reflexivity.
Qed.
Lemma calm_items items : Forall (@calm_item A) items -> before item_panics items = items /\ existsb item_panics items = false.
Proof. induction 1 as [|i l Hi _ [IH1 IH2]]; [split; reflexivity|]. cbn. unfold calm_item in Hi. rewrite Hi, IH1, IH2. split; reflexivity. Qed.
Lemma calm_run : calm_procs procs -> forall h s out seen, (forall t c, In (t, c) h -> calm c) ->
  exists seen', fold_left (spec_call scope down procs) h (s, false, out, seen) =
  (let '(s', _, out') := fold_left (live scope (map p_id procs)) (flat_map act (map snd h)) (s, down, out) in (s', false, out', seen')) /\
  snd (fst (fold_left (live scope (map p_id procs)) (flat_map act (map snd h)) (s, down, out))) = down.
Proof.
  intros Hp. destruct (calm_reached Hp) as [Er Ee]. induction h as [|[t c] h IH]; intros s out seen Hc; [exists seen; split; reflexivity|].
  assert (Hh : forall t c, In (t, c) h -> calm c) by (intros u c' Hi; apply (Hc u c'); right; exact Hi).
  pose proof (Hc t c (or_introl eq_refl)) as Hcc.
  destruct c as [n ts attrs|e ts a|a|items|st0|n|ts|]; cbn [fold_left spec_call snd fst map flat_map act app live]; try (apply IH; exact Hh).
  - destruct (calm_items _ Hcc) as [E1 E2]. rewrite E1, E2. fold (@item_attr A).
    replace (map (fun i : item A => match i with Item _ _ a => a end) items) with (map item_attr items) by reflexivity.
    destruct (is_recording s) eqn:R; [apply IH; exact Hh|]. rewrite (apply_dead _ s R). apply IH; exact Hh.
  - destruct (ensure_ended scope down (Some ts) 0 s) as [s' e] eqn:Ens. destruct e as [e|].
    + rewrite Er, Ee. cbn [hand_over]. rewrite map_map. cbn. replace (map (fun x => (p_id x, e)) procs) with (map (fun p => (p, e)) (map p_id procs)) by apply map_map.
      replace (map (fun x : proc A => (p_id x, e)) procs) with (map (fun p => (p, e)) (map p_id procs)) by (rewrite map_map; reflexivity). apply IH; exact Hh.
    + cbn [hand_over]. rewrite app_nil_r. apply IH; exact Hh.
Qed.
End calm.
Theorem C138_as_if_owned : forall A scope down (procs : list (proc A)) s0 prog s,
  (forall t c, In c (prog t) -> quiet c /\ calm c) -> quiet_procs procs -> calm_procs procs ->
  reach scope down procs (start true s0 prog) s -> st_lock s = None ->
  exists h, (st_span s, down, st_out s) = run_span scope (map p_id procs) down s0 (flat_map act (map snd h)) /\ st_poison s = false /\
    forall t, prog t = of_thread t h ++ flat_map (fun i => match i with ICall c => [c] | _ => [] end) (st_code s t).
Proof.
  intros A scope down procs s0 prog s Hqc Hp Hcp Hr Hl.
  assert (Hq : forall t c, In c (prog t) -> quiet c) by (intros t c Hi; apply (Hqc t c Hi)).
  pose proof (inv_reach scope down procs s0 prog Hq Hp s Hr) as Hi.
  destruct Hi as [_ _ E Hc|t pend k _ Hk]; [|congruence].
  assert (Hcm : forall t c, In (t, c) (st_hist s) -> calm c).
  { intros t c Hin. destruct (Hc t) as [cs [_ Hcs]]. assert (Hpt : In c (prog t)).
    { assert (Ho : In c (hist_of t (st_hist s))).
      { unfold hist_of. apply in_map_iff. exists (t, c). split; [reflexivity|]. apply filter_In. split; [exact Hin|]. cbn. apply Nat.eqb_refl. }
      destruct Hcs as [Hcs|[_ [_ [cs' Hcs]]]]; unfold calls_left in Hcs; rewrite Hcs; apply in_or_app; left; exact Ho. }
    apply (Hqc t c Hpt). }
  destruct (calm_run scope down procs Hcp (st_hist s) s0 [] [] Hcm) as [seen' [Er Ed]]. exists (st_hist s).
  unfold result_of, spec_run in E. rewrite Er in E. unfold run_span.
  destruct (fold_left (live scope (map p_id procs)) (flat_map act (map snd (st_hist s))) (s0, down, [])) as [[s' d'] out'] eqn:Ef.
  injection E as E1 E2 E3 E4. cbn in Ed. split; [congruence|]. split; [exact E2|].
  intros t. destruct (Hc t) as [cs [Ec Hcs]]. rewrite Ec.
  assert (Em : forall l : list (call A), flat_map (fun i : instr A => match i with ICall c => [c] | _ => [] end) (map ICall l) = l).
  { induction l as [|c l IH]; [reflexivity|]. cbn. f_equal. exact IH. }
  rewrite Em. destruct Hcs as [Hcs|[_ [E0 _]]]; [exact Hcs|congruence].
Qed.
Print Assumptions C138_as_if_owned.

(** When all threads have made all their calls and the last context with the span is
    dropped, the processors have been given what they would have been given for a span
    owned by one thread, with every call of every thread in it. *)
Theorem C138_all_calls_arrive : forall A scope down (procs : list (proc A)) s0 prog s now,
  (forall t c, In c (prog t) -> quiet c /\ calm c) -> quiet_procs procs -> calm_procs procs ->
  reach scope down procs (start true s0 prog) s -> st_lock s = None -> (forall t, st_code s t = []) ->
  exists h, drop_last scope down procs now s = snd (run_span scope (map p_id procs) down s0 (flat_map act (map snd h) ++ [DropSpan now])) /\
    forall t, of_thread t h = prog t.
Proof.
  intros A scope down procs s0 prog s now Hqc Hp Hcp Hr Hl Hd.
  destruct (C138_as_if_owned A scope down procs s0 prog s Hqc Hp Hcp Hr Hl) as [h [E [_ Hc]]]. exists h. split.
  - unfold run_span in *. rewrite fold_left_app, <- E. cbn [fold_left live]. unfold drop_last.
    destruct (ensure_ended scope down None now (st_span s)) as [s' e]. cbn [snd]. f_equal.
    destruct e as [e|]; cbn [hand_over]; [rewrite map_map; reflexivity|reflexivity].
  - intros t. rewrite (Hc t), (Hd t). cbn. rewrite app_nil_r. reflexivity.
Qed.
Print Assumptions C138_all_calls_arrive.

(** No thread waits for ever: as long as a thread has something to do, one can go on. *)
Theorem C138_no_deadlock : forall A scope down (procs : list (proc A)) s0 prog s t,
  (forall t c, In c (prog t) -> quiet c) -> quiet_procs procs ->
  reach scope down procs (start true s0 prog) s -> st_code s t <> [] ->
  exists u s', step scope down procs u s = Some s'.
Proof.
  intros A scope down procs s0 prog s t Hq Hp Hr Ht. pose proof (inv_reach scope down procs s0 prog Hq Hp s Hr) as Hi.
  destruct Hi as [Hl Hk _ Hc|u pend k Hl Hk _ Hcu _ Hpend _].
  - exists t. destruct (Hc t) as [[|c cs] [Ec _]]; [destruct (Ht Ec)|]. unfold step. rewrite Ec. cbn [map]. rewrite Hl, Hk. cbn [negb].
    destruct (st_poison s); eexists; reflexivity.
  - exists u. unfold step. rewrite Hcu. destruct Hpend as [[Hm _]|[ts [h [-> _]]]].
    + destruct pend as [|i pend]; [eexists; reflexivity|]. inversion Hm as [|? ? Hi _]; subst.
      destruct i; try destruct Hi; eexists; reflexivity.
    + cbn [app]. destruct (ensure_ended scope down (Some ts) 0 (st_span s)). eexists; reflexivity.
Qed.
Print Assumptions C138_no_deadlock.

(** A context that only has the context of a remote span: every call returns, nothing is
    handed over, is_recording is false. *)
Theorem C138_remote_span : forall A scope down (procs : list (proc A)) s0 prog s,
  reach scope down procs (start false s0 prog) s ->
  st_span s = s0 /\ st_out s = [] /\ (forall t b, In (t, b) (st_seen s) -> b = false) /\
  forall t, st_code s t <> [] -> exists s', step scope down procs t s = Some s'.
Proof.
  intros A scope down procs s0 prog s Hr.
  assert (H : st_local s = false /\ st_span s = s0 /\ st_out s = [] /\ (forall t b, In (t, b) (st_seen s) -> b = false) /\
              forall t, exists cs, st_code s t = map ICall cs).
  { remember (start false s0 prog) as a eqn:E. induction Hr as [|a s s' t _ IH Hs]; subst.
    - repeat match goal with |- _ /\ _ => split end; try reflexivity; [intros t b []|]. intros t. exists (prog t). reflexivity.
    - destruct (IH eq_refl) as (L & S & O & N & C). destruct (C t) as [[|c cs] Ec]; unfold step in Hs; rewrite Ec in Hs; [discriminate|].
      cbn [map] in Hs. rewrite L in Hs. cbn [negb] in Hs. injection Hs as <-. cbn.
      repeat match goal with |- _ /\ _ => split end; try assumption.
      + intros u b Hin. destruct c; try exact (N u b Hin). apply in_app_or in Hin. destruct Hin as [Hin|[E|[]]]; [exact (N u b Hin)|congruence].
      + intros u. unfold upd. destruct (Nat.eqb u t); [exists cs; reflexivity|apply C]. }
  destruct H as (L & S & O & N & C). repeat match goal with |- _ /\ _ => split end; try assumption.
  intros t Ht. destruct (C t) as [[|c cs] Ec]; [destruct (Ht Ec)|]. unfold step. rewrite Ec. cbn [map]. rewrite L. eexists; reflexivity.
Qed.
Print Assumptions C138_remote_span.

(** ** Examples: two threads, both interleaved in the middle of their calls. *)
Definition ex_d : span_data nat := mk_data 0 4 [] 0 0 [] 0 [] 0 [] 0 Unset.
Definition ex_span : span nat := mk_span sc_none (Some ex_d) default_limits.
Definition ex_prog (t : nat) : list (call nat) :=
  match t with 0 => [CAttr 1; CEnd 9] | 1 => [CAttrs [Item [] false 2; Item [] false 3]; CIsRec] | _ => [] end.
Fixpoint go {A} (procs : list (proc A)) (l : list nat) (s : st A) : option (st A) :=
  match l with [] => Some s | t :: l => match step [] false procs t s with Some s => go procs l s | None => None end end.
Lemma go_reach A (procs : list (proc A)) l : forall a s s', reach [] false procs a s -> go procs l s = Some s' -> reach [] false procs a s'.
Proof.
  induction l as [|t l IH]; intros a s s' Ha Hg; cbn in Hg; [injection Hg as <-; exact Ha|].
  destruct (step [] false procs t s) as [s1|] eqn:E; [|discriminate]. apply (IH a s1 s'); [|exact Hg]. exact (reach_step _ _ _ a s s1 t Ha E).
Qed.
Example C138_nonvacuous : exists s, reach [] false [mk_proc 7 [] false] (start true ex_span ex_prog) s /\ st_lock s = None /\ (forall t, st_code s t = []) /\ map (fun x => (fst x, sd_attrs (SpanModel.ex_data (snd x)), sd_end (SpanModel.ex_data (snd x)))) (st_out s) = [(7, [2; 3; 1], 9%Z)] /\ st_seen s = [(1, false)].
Proof.
  destruct (go [mk_proc 7 [] false] [1;1;1;1;0;0;0;0;0;0;0;1;1;1] (start true ex_span ex_prog)) as [s|] eqn:E; [|vm_compute in E; discriminate].
  exists s. split; [exact (go_reach _ _ _ _ _ _ (reach_refl _ _ _ _) E)|]. vm_compute in E. injection E as <-. cbn.
  repeat split. intros [|[|t]]; reflexivity.
Qed.

(** C139: may a processor, or the iterator given to set_attributes, use the span of the
    context?  Not while it is being ended or given the attributes: the thread then waits
    for itself, and so does every other thread that uses the span. *)
Theorem C139_reentry_blocks : forall A scope down (procs : list (proc A)) s s' t c k,
  st_local s = true -> st_lock s = Some t -> st_code s t = ICall c :: k ->
  (forall u, u <> t -> exists cs, st_code s u = map ICall cs) -> reach scope down procs s s' -> s' = s.
Proof.
  intros A scope down procs s s' t c k Hl Hk Hc Ho Hr. induction Hr as [|s s' s'' u _ IH Hs]; [reflexivity|].
  specialize (IH Hl Hk Hc Ho). subst s'. exfalso. unfold step in Hs. destruct (Nat.eq_dec u t) as [->|Hu].
  - rewrite Hc, Hl, Hk in Hs. discriminate.
  - destruct (Ho u Hu) as [[|c' cs] E]; rewrite E in Hs; [discriminate|]. cbn [map] in Hs. rewrite Hl, Hk in Hs. discriminate.
Qed.
Print Assumptions C139_reentry_blocks.
(** A processor whose on_end asks whether the active span is recording; an iterator that
    does.  Both threads of the example wait for ever. *)
Definition stuck {A} (procs : list (proc A)) (s : st A) : Prop := forall t, step [] false procs t s = None.
Theorem C139_callbacks_may_use_the_span_refuted : ~ (forall A (procs : list (proc A)) s0 prog s t,
  reach [] false procs (start true s0 prog) s -> st_code s t <> [] -> ~ stuck procs s).
Proof.
  intros H. set (procs := [mk_proc 7 [@CIsRec nat] false]).
  destruct (go procs [0;0;0] (start true ex_span (fun t => match t with 0 => [CEnd 9] | 1 => [CAttr 5] | _ => [] end))) as [s|] eqn:E; [|vm_compute in E; discriminate].
  apply (H nat procs _ _ s 1 (go_reach _ _ _ _ _ _ (reach_refl _ _ _ _) E)); vm_compute in E; injection E as <-; [discriminate|].
  intros [|[|t]]; reflexivity.
Qed.
Print Assumptions C139_callbacks_may_use_the_span_refuted.
Example C139_iterator_waits_too : exists s, reach [] false [] (start true ex_span (fun t => match t with 0 => [CAttrs [Item [CIsRec] false 3]] | _ => [] end)) s /\ st_code s 0 <> [] /\ stuck [] s.
Proof.
  destruct (go [] [0] (start true ex_span (fun t => match t with 0 => [CAttrs [Item [CIsRec] false 3]] | _ => [] end))) as [s|] eqn:E; [|vm_compute in E; discriminate].
  exists s. split; [exact (go_reach _ _ _ _ _ _ (reach_refl _ _ _ _) E)|]. vm_compute in E. injection E as <-. split; [discriminate|]. intros [|t]; reflexivity.
Qed.

(** C140: a panic inside one call on the span must not lose what others record later. *)
(** What holds: what was recorded before the panic stays, and reaches the processors when
    the last context is dropped; nothing is recorded afterwards. *)
Theorem C140_before_the_panic_kept : forall A scope down (procs : list (proc A)) s0 prog s,
  (forall t c, In c (prog t) -> quiet c) -> quiet_procs procs ->
  reach scope down procs (start true s0 prog) s -> st_poison s = true ->
  (forall s', reach scope down procs s s' -> st_span s' = st_span s /\ st_out s' = st_out s /\ st_poison s' = true) /\
  (forall d now, sp_data (st_span s) = Some d -> down = false ->
     exists d', drop_last scope down procs now s = st_out s ++ map (fun p => (p_id p, mk_exported (sp_ctx (st_span s)) d' scope)) procs /\
       sd_attrs d' = sd_attrs d /\ sd_events d' = sd_events d /\ sd_links d' = sd_links d /\ sd_status d' = sd_status d /\ sd_name d' = sd_name d).
Proof.
  intros A scope down procs s0 prog s Hq Hp Hr Po. split.
  - intros s' Hr'. assert (Hcl : forall a b, reach scope down procs a b -> reach scope down procs (start true s0 prog) a -> reach scope down procs (start true s0 prog) b).
    { induction 1 as [|a b b' u _ IH Hs]; intros Ha; [exact Ha|]. exact (reach_step _ _ _ _ b b' u (IH Ha) Hs). }
    induction Hr' as [|s s1 s2 u H1 IH Hs]; [auto|]. destruct (IH Hr Po) as (E1 & E2 & E3).
    pose proof (inv_reach scope down procs s0 prog Hq Hp s1 (Hcl s s1 H1 Hr)) as Hi.
    destruct Hi as [L K _ C|v pend k _ _ Hpo]; [|congruence]. destruct (C u) as [[|c cs] [Ec _]]; unfold step in Hs; rewrite Ec in Hs; [discriminate|].
    cbn [map] in Hs. rewrite L, K, E3 in Hs. cbn [negb] in Hs. injection Hs as <-. cbn. auto.
  - intros d now Hd ->. unfold drop_last, ensure_ended. rewrite Hd. cbn [snd]. eexists. split; [reflexivity|].
    destruct (Z.eqb (sd_end d) (sd_start d)); cbn; auto.
Qed.
Print Assumptions C140_before_the_panic_kept.
(** Thread 0 gives set_attributes an iterator that panics; thread 1 then sets attribute 5
    and ends the span.  The processor is given the span only when the context is dropped,
    without the attribute. *)
Theorem C140_panic_stays_local_refuted : ~ (forall A (procs : list (proc A)) s0 prog s,
  (forall t c, In c (prog t) -> quiet c) -> quiet_procs procs -> calm_procs procs ->
  reach [] false procs (start true s0 prog) s -> st_lock s = None -> (forall t, st_code s t = []) ->
  forall t a d now, In (CAttr a) (prog t) -> (forall c, In c (prog t) -> calm c) -> sp_data s0 = Some d -> sd_attrs d = [] ->
  forall p e, In (p, e) (drop_last [] false procs now s) -> In a (sd_attrs (SpanModel.ex_data e))).
Proof.
  intros H. set (procs := [mk_proc 7 (@nil (call nat)) false]).
  set (prog := fun t => match t with 0 => [CAttrs [Item [] true 3]] | 1 => [CAttr 5; CEnd 9] | _ => [] end).
  destruct (go procs [0;0;1;1] (start true ex_span prog)) as [s|] eqn:E; [|vm_compute in E; discriminate].
  pose proof (go_reach _ _ _ _ _ _ (reach_refl _ _ _ _) E) as Hr. 
  assert (In 5 (@nil nat)) as [].
  refine (H nat procs ex_span prog s _ _ _ Hr _ _ 1 5 ex_d 4%Z _ _ eq_refl eq_refl 7 (mk_exported sc_none (data_end 4 ex_d) []) _).
  - intros [|[|t]] c Hin; cbn in Hin; repeat destruct Hin as [<-|Hin]; try destruct Hin; cbn; auto; repeat constructor.
  - repeat constructor.
  - repeat constructor.
  - vm_compute in E. injection E as <-. reflexivity.
  - vm_compute in E. injection E as <-. intros [|[|t]]; reflexivity.
  - left. reflexivity.
  - intros c Hin; cbn in Hin; repeat destruct Hin as [<-|Hin]; try destruct Hin; exact I.
  - vm_compute in E. injection E as <-. left. reflexivity.
Qed.
Print Assumptions C140_panic_stays_local_refuted.
