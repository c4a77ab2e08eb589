(** Theorems for C32-C38 and C71: the batch processors. *)
From Coq Require Import List Arith ZArith Bool Lia.
From Coq Require Import ZifyBool ZifyNat.
From Verif Require Import ProviderModel BatchModel ProviderProps BatchProofs.
Import ListNotations.

(** Vocabulary: [exported s] are the items the exporter was given so far; the
    fate of call [i] is read off [b_emits]. *)
Definition exported (s : bstate) : list nat := concat (b_exported s).
Definition fate (s : bstate) (i : nat) (o : outcome) : Prop :=
  exists e, nth_error (b_emits s) i = Some e /\ e_pc e = EDone o.
Definition ctl (s : bstate) (id : nat) (shut : bool) (r : res) : Prop :=
  exists c, nth_error (b_ctls s) id = Some c /\ c_shut c = shut /\ c_pc c = CDone r.
Definition size_ok (Q : nat) : Prop := (Z.of_nat Q < 2 ^ 64)%Z.

(** * C32, C36: nothing duplicated, reordered or invented *)

Theorem C32_C36_order : forall logs Q M acts s, size_ok Q -> brun logs Q M b_init acts = Some s ->
  (* what was exported, then what the worker holds, then what is queued, is what was accepted, in order *)
  b_accepted s = exported s ++ wbuf (b_worker s) ++ b_queue s /\
  NoDup (b_accepted s) /\
  (* an item was accepted exactly if its call is past a successful send *)
  (forall i, In i (b_accepted s) -> exists e, nth_error (b_emits s) i = Some e /\ e_late e = false) /\
  (forall i, fate s i OAccepted -> In i (b_accepted s)) /\
  (forall i o, fate s i o -> o <> OAccepted -> ~ In i (b_accepted s)).
Proof.
  intros logs Q M acts s HQ H. destruct (binv_reach logs Q M HQ _ _ H) as [A B _ _ _ _].
  destruct (b_in _ _ B) as [N I]. split; [exact (a_fifo _ _ _ A)|split; [exact N|split; [|split]]].
  - intros i Hi. apply I in Hi. destruct Hi as (e & He & Ha). exists e. split; [exact He|].
    destruct (e_late e) eqn:L; [|reflexivity]. pose proof (b_late _ _ B i e He L) as X. cbv beta in X.
    unfold was_acc in Ha. destruct logs, X as [[X|X] _]; rewrite X in Ha; discriminate.
  - intros i (e & He & Hp). apply I. exists e. split; [exact He|]. unfold was_acc. rewrite Hp. reflexivity.
  - intros i o (e & He & Hp) Ho Hi. apply I in Hi. destruct Hi as (e' & He' & Ha). rewrite He in He'. injection He' as <-.
    unfold was_acc in Ha. rewrite Hp in Ha. destruct o; try discriminate. congruence.
Qed.
Print Assumptions C32_C36_order.

Theorem C32_C36_bounds : forall logs Q M acts s, size_ok Q -> brun logs Q M b_init acts = Some s ->
  length (b_queue s) <= Q /\ forall b, In b (b_exported s) -> b <> [] /\ (0 < M -> length b <= M).
Proof.
  intros logs Q M acts s HQ H. destruct (binv_reach logs Q M HQ _ _ H) as [A _ _ _ _ _]. split; [exact (a_q _ _ _ A)|].
  intros b Hb. pose proof (proj1 (Forall_forall _ _) (a_exp _ _ _ A) b Hb) as [H1 H2]. split; [exact H1|]. lia.
Qed.
Print Assumptions C32_C36_bounds.

(** When all calls have returned, the accepted ones are exported, held or queued
    and the others are in the count of dropped items, or were refused because of
    shutdown. *)
Definition is_drop (e : ecall) : bool := match e_pc e with EDone ODropped => true | _ => false end.
Theorem C32_C36_accounting : forall logs Q M acts s, size_ok Q -> brun logs Q M b_init acts = Some s ->
  (forall i e, nth_error (b_emits s) i = Some e -> exists o, e_pc e = EDone o) ->
  b_dropped s = length (filter is_drop (b_emits s)) /\
  forall i, i < length (b_emits s) ->
    (fate s i OAccepted /\ In i (exported s ++ wbuf (b_worker s) ++ b_queue s)) \/
    fate s i ODropped \/
    (fate s i ORejected /\ if logs then b_worker s = WExited else b_down s = true).
Proof.
  intros logs Q M acts s HQ H Hq. destruct (binv_reach logs Q M HQ _ _ H) as [A B _ _ E _]. split.
  - rewrite (b_drop _ _ B). unfold cnt. f_equal. apply filter_ext_in. intros e He. destruct (In_nth_error _ _ He) as (i & Hi).
    destruct (Hq i e Hi) as (o & Ho). unfold was_dropped, is_drop. rewrite Ho. reflexivity.
  - intros i Hi. destruct (nth_error (b_emits s) i) as [e|] eqn:He; [|apply nth_error_None in He; lia].
    destruct (Hq i e He) as ([] & Ho).
    + left. split; [exists e; auto|]. change (exported s) with (concat (b_exported s)). rewrite <- (a_fifo _ _ _ A). apply (proj2 (b_in _ _ B)). exists e. split; [exact He|].
      unfold was_acc. rewrite Ho. reflexivity.
    + right; left. exists e. auto.
    + right; right. split; [exists e; auto|]. pose proof (e_rej _ _ E i e He Ho) as X. destruct logs; [|exact X].
      destruct (b_worker s); try discriminate; reflexivity.
Qed.
Print Assumptions C32_C36_accounting.

(** A call that reaches the queue while there is room (and the worker lives)
    has its item accepted; items are turned away only from a full queue. *)
Theorem C32_C36_room : forall logs Q M s s' i e, nth_error (b_emits s) i = Some e -> e_pc e = ESend ->
  b_worker s <> WExited -> bstep logs Q M s (EStep i) = Some s' ->
  (length (b_queue s) < Q -> b_queue s' = b_queue s ++ [i] /\ b_accepted s' = b_accepted s ++ [i]) /\
  (Q <= length (b_queue s) -> b_queue s' = b_queue s /\ b_accepted s' = b_accepted s /\
     exists e', nth_error (b_emits s') i = Some e' /\ e_pc e' = EDrop).
Proof.
  intros logs Q M s s' i e He Hp Hw H. cbn in H. unfold emit_step in H. rewrite He, Hp in H.
  assert (Hx : BatchModel.exited (b_worker s) = false) by (destruct (b_worker s); try reflexivity; congruence). rewrite Hx in H.
  destruct (Nat.ltb_spec (length (b_queue s)) Q); injection H as <-; (split; intros; [|]); try lia; [split; reflexivity|].
  split; [reflexivity|split; [reflexivity|]]. cbn. rewrite He, nth_set_nth, Nat.eqb_refl, He. eexists. split; reflexivity.
Qed.
Print Assumptions C32_C36_room.

(** Two emitters racing with the worker: both spans arrive, in queue order. *)
Example C32_C36_nonvacuous :
  let acts := [Emit; Emit; EStep 1; EStep 0; EStep 1; EStep 0; EStep 1; EStep 1; EStep 1; EStep 1; EStep 0;
               WStep true; WStep true; WStep true; WStep true; WStep true; WStep true] in
  match brun false 4 1 b_init acts with
  | Some s => exported s = [1] /\ b_queue s = [0] /\ b_accepted s = [1; 0]
  | None => False
  end.
Proof. vm_compute. auto. Qed.

(** * C33, C34, C37: what force_flush and shutdown achieve *)

(** Common lower bound.  [s0] is the state in which the call is made. *)
Definition promised (logs : bool) (M : nat) (s0 : bstate) : nat :=
  if logs then b_counted s0
  else if M =? 0 then length (b_accepted s0) else Nat.min (length (b_accepted s0)) (length (exported s0) + length (wbuf (b_worker s0)) + M).

Lemma answered_bound logs Q M (shut : bool) acts acts' s0 s1 : size_ok Q ->
  brun logs Q M b_init acts = Some s0 ->
  brun logs Q M s0 ((if shut then Shutdown else Flush) :: acts') = Some s1 ->
  ctl s1 (length (b_ctls s0)) shut ROk ->
  promised logs M s0 <= length (exported s1) /\ exists x, b_accepted s1 = b_accepted s0 ++ x.
Proof.
  intros HQ H0 H1 (c & Hc & Hsh & Hp). pose proof (binv_reach logs Q M HQ _ _ H0) as I0.
  assert (I1 : binv logs Q M s1) by (eapply binv_run; [exact HQ|exact I0|exact H1]).
  pose proof (run_mono logs Q M _ _ _ H1) as ((x & Hx) & _).
  assert (Hadd : exists s2, bstep logs Q M s0 (if shut then Shutdown else Flush) = Some s2 /\ brun logs Q M s2 acts' = Some s1 /\ s2 = add_ctl (new_ctl logs shut s0) s0).
  { destruct shut; cbn in H1; eexists; (split; [reflexivity|split; [exact H1|reflexivity]]). }
  destruct Hadd as (s2 & _ & H2 & ->). destruct (run_mono logs Q M _ _ _ H2) as (_ & _ & Hk & _).
  destruct (Hk (length (b_ctls s0)) (new_ctl logs shut s0)) as (c' & Hc' & Hg & _); [apply nth_snoc_new|].
  rewrite Hc in Hc'. injection Hc' as <-.
  pose proof (d_done _ _ _ (i_D _ _ _ _ I1) _ c Hc (or_intror Hp)) as Hb. rewrite Hg in Hb.
  split; [exact Hb|eauto].
Qed.
Lemma firstn_prefix {A} n (l x m r : list A) : l ++ x = m ++ r -> n <= length l -> n <= length m -> firstn n l = firstn n m.
Proof.
  intros H H1 H2. apply (f_equal (firstn n)) in H. rewrite !firstn_app in H.
  replace (n - length l) with 0 in H by lia. replace (n - length m) with 0 in H by lia.
  cbn [firstn] in H. rewrite !app_nil_r in H. exact H.
Qed.
Lemma answered_prefix logs Q M (shut : bool) acts acts' s0 s1 : size_ok Q ->
  brun logs Q M b_init acts = Some s0 ->
  brun logs Q M s0 ((if shut then Shutdown else Flush) :: acts') = Some s1 ->
  ctl s1 (length (b_ctls s0)) shut ROk ->
  exists r, exported s1 = firstn (promised logs M s0) (b_accepted s0) ++ r.
Proof.
  intros HQ H0 H1 H2. destruct (answered_bound logs Q M shut acts acts' s0 s1 HQ H0 H1 H2) as (Hb & x & Hx).
  assert (I1 : binv logs Q M s1) by (eapply binv_run; [exact HQ|exact (binv_reach logs Q M HQ _ _ H0)|exact H1]).
  pose proof (a_fifo _ _ _ (i_A _ _ _ _ I1)) as F. rewrite Hx in F. change (concat (b_exported s1)) with (exported s1) in F.
  exists (skipn (promised logs M s0) (exported s1)).
  rewrite (firstn_prefix _ _ _ _ _ F); [rewrite firstn_skipn; reflexivity| |exact Hb].
  unfold promised. pose proof (binv_reach logs Q M HQ _ _ H0) as I0. destruct logs; [|destruct (M =? 0); lia].
  eapply counted_le, (i_B _ _ _ _ I0).
Qed.


Ltac compute_in E s := vm_compute in E; injection E as <-.

(** C33.  The property fails: force_flush exports a single batch.  Here: three
    spans, batch size 1; the pending export message and the flush export one
    span each. *)
Definition three_spans : list baction :=
  [Emit; Emit; Emit; EStep 0; EStep 0; EStep 0; EStep 0; EStep 0; EStep 0; EStep 1; EStep 1; EStep 1; EStep 1; EStep 2; EStep 2; EStep 2; EStep 2].
Definition two_jobs : list baction :=
  [CStep 0; CStep 0] ++ map WStep (repeat true 13) ++ [CStep 0].
Theorem C103_flush_exports_all_refuted : ~ (forall Q M acts acts' s0 s1 i, size_ok Q -> 0 < M -> M <= Q ->
  brun false Q M b_init acts = Some s0 -> fate s0 i OAccepted ->
  brun false Q M s0 (Flush :: acts') = Some s1 -> ctl s1 (length (b_ctls s0)) false ROk -> In i (exported s1)).
Proof.
  intros H.
  destruct (brun false 3 1 b_init three_spans) as [s0|] eqn:E0; [|vm_compute in E0; discriminate].
  destruct (brun false 3 1 s0 (Flush :: two_jobs)) as [s1|] eqn:E1; [|compute_in E0 s0; vm_compute in E1; discriminate].
  assert (X : In 2 (exported s1)).
  { apply (H 3 1 three_spans two_jobs s0 s1 2); [reflexivity|lia|lia|exact E0| |exact E1|];
    compute_in E0 s0; [eexists; split; reflexivity|].
    compute_in E1 s1. eexists. split; [reflexivity|split; reflexivity]. }
  compute_in E0 s0. compute_in E1 s1. cbn in X. intuition discriminate.
Qed.
Print Assumptions C103_flush_exports_all_refuted.

(** What does hold: after force_flush returned Ok, everything accepted before it
    was called has been exported, up to one batch more than had been taken from
    the queue by then... *)
Lemma promised_spans M s0 : 0 < M ->
  firstn (promised false M s0) (b_accepted s0) =
  firstn (length (exported s0) + length (wbuf (b_worker s0)) + M) (b_accepted s0).
Proof.
  intros HM. unfold promised. destruct (Nat.eqb_spec M 0); [lia|].
  destruct (Nat.min_spec (length (b_accepted s0)) (length (exported s0) + length (wbuf (b_worker s0)) + M)) as [[Hlt ->]|[_ ->]]; [|reflexivity].
  rewrite !firstn_all2; [reflexivity|lia|lia].
Qed.
Theorem C33_flush_exports_a_batch : forall Q M acts acts' s0 s1, size_ok Q -> 0 < M ->
  brun false Q M b_init acts = Some s0 ->
  brun false Q M s0 (Flush :: acts') = Some s1 -> ctl s1 (length (b_ctls s0)) false ROk ->
  exists r, exported s1 =
    firstn (length (exported s0) + length (wbuf (b_worker s0)) + M) (b_accepted s0) ++ r.
Proof.
  intros Q M acts acts' s0 s1 HQ HM H0 H1 H2. rewrite <- promised_spans by exact HM.
  exact (answered_prefix false Q M false acts acts' s0 s1 HQ H0 H1 H2).
Qed.
Print Assumptions C33_flush_exports_a_batch.

(** ... so the property holds when at most a batch was queued. *)
Theorem C33_flush_complete_when_one_batch : forall Q M acts acts' s0 s1 i, size_ok Q -> 0 < M ->
  brun false Q M b_init acts = Some s0 -> length (b_queue s0) <= M -> fate s0 i OAccepted ->
  brun false Q M s0 (Flush :: acts') = Some s1 -> ctl s1 (length (b_ctls s0)) false ROk -> In i (exported s1).
Proof.
  intros Q M acts acts' s0 s1 i HQ HM H0 Hq Hi H1 H2.
  destruct (C33_flush_exports_a_batch Q M acts acts' s0 s1 HQ HM H0 H1 H2) as (r & ->).
  destruct (C32_C36_order false Q M acts s0 HQ H0) as (F & _ & _ & Hacc & _). apply in_or_app. left.
  rewrite firstn_all2; [apply Hacc, Hi|]. rewrite F, !app_length. lia.
Qed.
Print Assumptions C33_flush_complete_when_one_batch.

Example C33_nonvacuous :
  match brun false 3 2 b_init [Emit; EStep 0; EStep 0; EStep 0] with
  | Some s0 => fate s0 0 OAccepted /\ length (b_queue s0) <= 2 /\
    match brun false 3 2 s0 ([Flush; CStep 0; CStep 0] ++ map WStep (repeat true 7) ++ [CStep 0]) with
    | Some s1 => ctl s1 0 false ROk
    | None => False
    end
  | None => False
  end.
Proof. vm_compute. split; [eexists; split; reflexivity|split; [auto|eexists; split; [reflexivity|split; reflexivity]]]. Qed.

(** C104.  Shutdown drains only one batch, and never shuts the exporter down. *)
Theorem C104_shutdown_drains_refuted : ~ (forall Q M acts acts' s0 s1 i, size_ok Q -> 0 < M -> M <= Q ->
  brun false Q M b_init acts = Some s0 -> fate s0 i OAccepted ->
  brun false Q M s0 (Shutdown :: acts') = Some s1 -> ctl s1 (length (b_ctls s0)) true ROk -> In i (exported s1)).
Proof.
  intros H.
  destruct (brun false 3 1 b_init three_spans) as [s0|] eqn:E0; [|vm_compute in E0; discriminate].
  destruct (brun false 3 1 s0 (Shutdown :: two_jobs)) as [s1|] eqn:E1; [|compute_in E0 s0; vm_compute in E1; discriminate].
  assert (X : In 2 (exported s1)).
  { apply (H 3 1 three_spans two_jobs s0 s1 2); [reflexivity|lia|lia|exact E0| |exact E1|];
    compute_in E0 s0; [eexists; split; reflexivity|].
    compute_in E1 s1. eexists. split; [reflexivity|split; reflexivity]. }
  compute_in E0 s0. compute_in E1 s1. cbn in X. intuition discriminate.
Qed.
Print Assumptions C104_shutdown_drains_refuted.

(** (The exporter's shutdown is never called on the span side.) *)
Theorem C104_exporter_shut_down_refuted : forall Q M acts s, size_ok Q ->
  brun false Q M b_init acts = Some s -> b_exporter_shutdowns s = 0.
Proof. intros Q M acts s HQ H. exact (e_xsd _ _ (i_E _ _ _ _ (binv_reach false Q M HQ _ _ H))). Qed.
Print Assumptions C104_exporter_shut_down_refuted.

Theorem C34_shutdown_exports_a_batch : forall Q M acts acts' s0 s1, size_ok Q -> 0 < M ->
  brun false Q M b_init acts = Some s0 ->
  brun false Q M s0 (Shutdown :: acts') = Some s1 -> ctl s1 (length (b_ctls s0)) true ROk ->
  (exists r, exported s1 = firstn (length (exported s0) + length (wbuf (b_worker s0)) + M) (b_accepted s0) ++ r) /\
  (length (b_queue s0) <= M -> forall i, fate s0 i OAccepted -> In i (exported s1)).
Proof.
  intros Q M acts acts' s0 s1 HQ HM H0 H1 H2.
  pose proof (answered_prefix false Q M true acts acts' s0 s1 HQ H0 H1 H2) as X. rewrite promised_spans in X by exact HM.
  split; [exact X|]. intros Hq i Hi. destruct X as (r & ->).
  destruct (C32_C36_order false Q M acts s0 HQ H0) as (F & _ & _ & Hacc & _). apply in_or_app. left.
  rewrite firstn_all2; [apply Hacc, Hi|]. rewrite F, !app_length. lia.
Qed.
Print Assumptions C34_shutdown_exports_a_batch.

(** Once shutdown answered Ok the worker is gone: nothing is exported any more
    (both processors). *)
Theorem C34_C37_quiet_after_shutdown : forall logs Q M acts s id acts' s', size_ok Q ->
  brun logs Q M b_init acts = Some s -> ctl s id true ROk -> brun logs Q M s acts' = Some s' ->
  b_exported s' = b_exported s /\ b_worker s' = WExited.
Proof.
  intros logs Q M acts s id acts' s' HQ H (c & Hc & Hs & Hp) H'.
  pose proof (proj1 (e_ctl _ _ (i_E _ _ _ _ (binv_reach logs Q M HQ _ _ H)) id c Hc) Hs Hp) as Hx.
  destruct (run_exited logs Q M _ _ _ H' Hx) as (A & B & _). auto.
Qed.
Print Assumptions C34_C37_quiet_after_shutdown.

(** A span ended after shutdown was called is never accepted. *)
Theorem C34_late_spans_rejected : forall Q M acts s acts' s', size_ok Q ->
  brun false Q M b_init acts = Some s -> b_down s = true ->
  brun false Q M s (Emit :: acts') = Some s' -> ~ In (length (b_emits s)) (b_accepted s').
Proof.
  intros Q M acts s acts' s' HQ H Hd H' Hin.
  assert (HI : brun false Q M b_init (acts ++ Emit :: acts') = Some s') by (rewrite run_app, H; exact H').
  destruct (C32_C36_order false Q M _ s' HQ HI) as (_ & _ & Hl & _). destruct (Hl _ Hin) as (e & He & Hlate).
  cbn in H'. destruct (run_mono false Q M _ _ _ H') as (_ & _ & _ & Hk).
  destruct (Hk (length (b_emits s)) _ (nth_snoc_new _ _)) as (e' & He' & L & _).
  rewrite He in He'. injection He' as <-. cbn in L. congruence.
Qed.
Print Assumptions C34_late_spans_rejected.

(** The flag is up once any shutdown call has got past its check; a call of
    shutdown or force_flush that makes its check with the flag up answers
    AlreadyShutdown. *)
Theorem C34_flag_up : forall Q M acts s id c, size_ok Q -> brun false Q M b_init acts = Some s ->
  nth_error (b_ctls s) id = Some c -> c_shut c = true -> c_pc c <> CCheck -> b_down s = true.
Proof.
  intros Q M acts s id c HQ H Hc Hs Hp. exact (proj1 (proj2 (e_ctl _ _ (i_E _ _ _ _ (binv_reach false Q M HQ _ _ H)) id c Hc)) eq_refl Hs Hp).
Qed.
Print Assumptions C34_flag_up.
Theorem C34_second_call_already : forall Q M s id c s', nth_error (b_ctls s) id = Some c -> c_pc c = CCheck -> b_down s = true ->
  bstep false Q M s (CStep id) = Some s' ->
  exists c', nth_error (b_ctls s') id = Some c' /\ c_pc c' = CDone RAlready /\ c_shut c' = c_shut c.
Proof.
  intros Q M s id c s' Hc Hp Hd H. cbn in H. unfold ctl_step in H. rewrite Hc, Hp, Hd in H. injection H as <-.
  assert (X : nth_error (b_ctls (set_ctl id (CDone RAlready) s)) id = Some (mk_c (c_shut c) (c_acc c) (c_counted c) (c_pulled c) (CDone RAlready))).
  { cbn. rewrite Hc, nth_set_nth, Nat.eqb_refl, Hc. reflexivity. }
  destruct (c_shut c) eqn:E; cbn [set_down b_ctls]; eexists; (split; [exact X|split; [reflexivity|cbn; congruence]]).
Qed.
Print Assumptions C34_second_call_already.

Example C34_nonvacuous :
  match brun false 3 2 b_init [Emit; EStep 0; EStep 0; EStep 0] with
  | Some s0 => fate s0 0 OAccepted /\
    match brun false 3 2 s0 ([Shutdown; CStep 0; CStep 0] ++ map WStep (repeat true 7) ++ [CStep 0]) with
    | Some s1 => ctl s1 0 true ROk /\ b_down s1 = true /\ exported s1 = [0]
    | None => False
    end
  | None => False
  end.
Proof. vm_compute. split; [eexists; split; reflexivity|split; [eexists; split; [reflexivity|split; reflexivity]|auto]]. Qed.

(** C106.  A record whose emit has returned may be missed, when another emit has
    put its record ahead in the queue without having counted it yet. *)
Theorem C106_flush_exports_all_refuted : ~ (forall Q M acts acts' s0 s1 i, size_ok Q -> 0 < M -> M <= Q ->
  brun true Q M b_init acts = Some s0 -> fate s0 i OAccepted ->
  brun true Q M s0 (Flush :: acts') = Some s1 -> ctl s1 (length (b_ctls s0)) false ROk -> In i (exported s1)).
Proof.
  intros H.
  pose (acts := [Emit; Emit; EStep 0; EStep 1; EStep 1; EStep 1; EStep 1; EStep 1]).
  pose (acts' := [CStep 0] ++ map WStep (repeat true 10) ++ [CStep 0]).
  destruct (brun true 3 1 b_init acts) as [s0|] eqn:E0; [|vm_compute in E0; discriminate].
  destruct (brun true 3 1 s0 (Flush :: acts')) as [s1|] eqn:E1; [|compute_in E0 s0; vm_compute in E1; discriminate].
  assert (X : In 1 (exported s1)).
  { apply (H 3 1 acts acts' s0 s1 1); [reflexivity|lia|lia|exact E0| |exact E1|];
    compute_in E0 s0; [eexists; split; reflexivity|].
    compute_in E1 s1. eexists. split; [reflexivity|split; reflexivity]. }
  compute_in E0 s0. compute_in E1 s1. cbn in X. intuition discriminate.
Qed.
Print Assumptions C106_flush_exports_all_refuted.

(** Ok does not mean that every export succeeded: only the last batch's result
    is reported.  Two records, batches of one, the first export fails. *)
Theorem C106_ok_means_exported_refuted : exists acts acts' s0 s1,
  brun true 3 1 b_init acts = Some s0 /\ brun true 3 1 s0 acts' = Some s1 /\
  In (WStep false) acts' /\ ctl s1 0 false ROk /\
  (* the failing step is an export of record 0 *)
  (exists s a b, brun true 3 1 s0 a = Some s /\ acts' = a ++ WStep false :: b /\
     exists j t n r, b_worker s = WExport j [0] t n r /\ j = JFlush 0).
Proof.
  exists ([Emit; Emit; EStep 0; EStep 1; EStep 0; EStep 1; EStep 0; EStep 0; EStep 1] ++
          [Flush; CStep 0]).
  pose (a := map WStep (repeat true 3)). pose (b := map WStep (repeat true 5) ++ [CStep 0]).
  exists (a ++ WStep false :: b).
  eexists. eexists.
  split; [vm_compute; reflexivity|]. split; [vm_compute; reflexivity|]. split; [cbn; auto 8|].
  split; [eexists; split; [reflexivity|split; reflexivity]|].
  eexists. exists a, b. split; [vm_compute; reflexivity|]. split; [reflexivity|]. do 4 eexists. split; reflexivity.
Qed.
Print Assumptions C106_ok_means_exported_refuted.

(** What does hold: everything counted when force_flush or shutdown was called
    has been exported when it answers Ok ... *)
Theorem C37_exports_counted : forall Q M (shut : bool) acts acts' s0 s1, size_ok Q ->
  brun true Q M b_init acts = Some s0 ->
  brun true Q M s0 ((if shut then Shutdown else Flush) :: acts') = Some s1 -> ctl s1 (length (b_ctls s0)) shut ROk ->
  exists r, exported s1 = firstn (b_counted s0) (b_accepted s0) ++ r.
Proof. intros Q M shut acts acts' s0 s1 HQ H0 H1 H2. exact (answered_prefix true Q M shut acts acts' s0 s1 HQ H0 H1 H2). Qed.
Print Assumptions C37_exports_counted.

(** ... so the property holds when no emit was between the send and the count;
    in particular when all emits had returned. *)
Lemma cnt_ext {A} (f g : A -> bool) l : (forall x, In x l -> f x = g x) -> cnt f l = cnt g l.
Proof. intros H. unfold cnt. f_equal. apply filter_ext_in, H. Qed.
Lemma settled_counted logs s : invB logs s -> (forall i e, nth_error (b_emits s) i = Some e -> e_pc e <> EInc true) ->
  b_counted s = length (b_accepted s).
Proof.
  intros B H. rewrite (b_acc _ _ B), (b_cnt _ _ B). apply cnt_ext. intros e He. destruct (In_nth_error _ _ He) as (i & Hi).
  specialize (H i e Hi). unfold is_counted, was_acc. destruct (e_pc e) as [| | |[]| | | | |]; congruence.
Qed.
Theorem C37_complete_when_settled : forall Q M (shut : bool) acts acts' s0 s1 i, size_ok Q ->
  brun true Q M b_init acts = Some s0 ->
  (forall i e, nth_error (b_emits s0) i = Some e -> e_pc e <> EInc true) ->
  fate s0 i OAccepted ->
  brun true Q M s0 ((if shut then Shutdown else Flush) :: acts') = Some s1 -> ctl s1 (length (b_ctls s0)) shut ROk ->
  In i (exported s1).
Proof.
  intros Q M shut acts acts' s0 s1 i HQ H0 Hs Hi H1 H2. destruct (C37_exports_counted Q M shut acts acts' s0 s1 HQ H0 H1 H2) as (r & ->).
  destruct (C32_C36_order true Q M acts s0 HQ H0) as (_ & _ & _ & Hacc & _). apply in_or_app. left.
  rewrite (settled_counted true s0 (i_B _ _ _ _ (binv_reach true Q M HQ _ _ H0)) Hs), firstn_all2 by lia. apply Hacc, Hi.
Qed.
Print Assumptions C37_complete_when_settled.

(** The log exporter is shut down exactly once, as the worker leaves. *)
Theorem C37_exporter_shut_down_once : forall Q M acts s, size_ok Q -> brun true Q M b_init acts = Some s ->
  b_exporter_shutdowns s <= 1 /\ (forall id, ctl s id true ROk -> b_exporter_shutdowns s = 1).
Proof.
  intros Q M acts s HQ H. pose proof (i_E _ _ _ _ (binv_reach true Q M HQ _ _ H)) as E. rewrite (e_xsd _ _ E). cbn [andb].
  split; [destruct (BatchModel.exited _); auto|]. intros id (c & Hc & Hs & Hp). rewrite (proj1 (e_ctl _ _ E id c Hc) Hs Hp). reflexivity.
Qed.
Print Assumptions C37_exporter_shut_down_once.

(** Records emitted after the worker has left are refused. *)
Theorem C37_late_records_rejected : forall Q M acts s acts' s', size_ok Q ->
  brun true Q M b_init acts = Some s -> b_worker s = WExited ->
  brun true Q M s (Emit :: acts') = Some s' -> ~ In (length (b_emits s)) (b_accepted s').
Proof.
  intros Q M acts s acts' s' HQ H Hd H' Hin.
  assert (HI : brun true Q M b_init (acts ++ Emit :: acts') = Some s') by (rewrite run_app, H; exact H').
  destruct (C32_C36_order true Q M _ s' HQ HI) as (_ & _ & Hl & _). destruct (Hl _ Hin) as (e & He & Hlate).
  cbn in H'. destruct (run_mono true Q M _ _ _ H') as (_ & _ & _ & Hk).
  destruct (Hk (length (b_emits s)) _ (nth_snoc_new _ _)) as (e' & He' & L & _).
  rewrite He in He'. injection He' as <-. cbn in L. rewrite Hd in L. cbn in L. congruence.
Qed.
Print Assumptions C37_late_records_rejected.

Example C37_nonvacuous :
  match brun true 3 1 b_init [Emit; EStep 0; EStep 0; EStep 0; EStep 0; EStep 0; Emit; EStep 1; EStep 1; EStep 1] with
  | Some s0 => fate s0 0 OAccepted /\ fate s0 1 OAccepted /\
    match brun true 3 1 s0 ([Shutdown; CStep 0] ++ map WStep (repeat true 13) ++ [CStep 0]) with
    | Some s1 => ctl s1 0 true ROk /\ exported s1 = [0; 1] /\ b_exporter_shutdowns s1 = 1
    | None => False
    end
  | None => False
  end.
Proof. vm_compute. split; [eexists; split; reflexivity|split; [eexists; split; reflexivity|split; [eexists; split; [reflexivity|split; reflexivity]|auto]]]. Qed.

(** * C38: the worker gets to the end of its work *)

(** The worker can always take a step, unless it has left or waits with no
    message; then nobody waits for it. *)
Theorem C38_worker_never_stuck : forall logs Q M acts s ok, size_ok Q -> brun logs Q M b_init acts = Some s ->
  bstep logs Q M s (WStep ok) = None ->
  b_worker s = WExited \/
  (b_worker s = WWait /\ b_msgs s = [] /\ forall id c, nth_error (b_ctls s) id = Some c -> c_pc c <> CWait).
Proof.
  intros logs Q M acts s ok HQ H Hn. cbn in Hn. unfold worker_step in Hn.
  destruct (b_worker s) as [| |j|j buf t tot r|j buf t tot r|j cn t tot r|j r|] eqn:Ew; try discriminate; auto.
  - right. destruct (b_msgs s) eqn:Em; [|discriminate]. split; [reflexivity|split; [reflexivity|]].
    intros id c Hc Hp. pose proof (e_ctl _ _ (i_E _ _ _ _ (binv_reach logs Q M HQ _ _ H)) id c Hc) as (_ & _ & X).
    rewrite Ew, Em in X. destruct (X Hp) as [[]|[X'|X']]; [destruct (c_shut c)|]; discriminate.
  - destruct logs; discriminate.
  - destruct (b_queue s); discriminate.
  - destruct buf; discriminate.
Qed.
Print Assumptions C38_worker_never_stuck.

(** A measure of the work left. *)
Definition phase (w : wpc) : nat :=
  match w with
  | WFlag => 7 | WStart _ => 5 | WPull _ _ _ _ _ => 4 | WExport _ _ _ _ _ => 3
  | WSub _ c _ _ _ => if c =? 0 then 2 else 6 | WReply _ _ => 1 | _ => 0
  end.
Definition work (s : bstate) : nat :=
  10 * length (b_msgs s) + 11 * length (b_queue s) + 10 * length (wbuf (b_worker s)) + phase (b_worker s).
(** Log records: the worker's target is no more than what it can get. *)
Definition calm (logs : bool) (s : bstate) : Prop :=
  logs = true ->
  b_counted s = length (b_accepted s) /\
  match b_worker s with
  | WPull _ buf t tot _ => (t <= Z.of_nat (tot + length buf + length (b_queue s)))%Z
  | WExport _ buf t tot _ => (t <= Z.of_nat (tot + length buf + length (b_queue s)))%Z /\ (buf = [] -> b_queue s = [])
  | WSub _ c t tot _ => (t <= Z.of_nat (tot + c + length (b_queue s)))%Z /\ (c = 0 -> b_queue s = [])
  | _ => True
  end.
Lemma reply_frame j r s : b_queue (reply j r s) = b_queue s /\ b_msgs (reply j r s) = b_msgs s /\ b_accepted (reply j r s) = b_accepted s /\ b_counted (reply j r s) = b_counted s.
Proof. destruct j as [|i|i]; cbn [reply]; auto; destruct (nth_error (b_ctls s) i) as [c|]; auto; destruct (c_pc c); auto. Qed.
Lemma work_step logs Q M s ok s' : size_ok Q -> binv logs Q M s -> calm logs s -> bstep logs Q M s (WStep ok) = Some s' ->
  work s' < work s /\ calm logs s'.
Proof.
  intros HQ I C H. pose proof I as [A B IC _ _ _]. cbn in H. unfold worker_step in H. unfold work, calm in *.
  destruct (b_worker s) as [| |j|j buf t tot r|j buf t tot r|j cn t tot r|j r|] eqn:Ew.
  - destruct (b_msgs s) as [|m ms] eqn:Em; [discriminate|]. injection H as <-. cbn [set_msgs set_worker b_msgs b_queue b_worker b_counted b_accepted].
    split; [destruct m; cbn; lia|]. intros L. specialize (C L). destruct m; cbn; tauto.
  - injection H as <-. cbn in *. split; [lia|]. intros L. specialize (C L). tauto.
  - destruct logs.
    + assert (Hcbs : b_cbs s = Z.of_nat (length (b_queue s))).
      { destruct (IC eq_refl) as [X _]. unfold subbed in X. rewrite Ew in X. destruct (C eq_refl) as [Y _]. rewrite Y, (a_fifo _ _ _ A), Ew in X. cbn [wbuf app] in X.
        rewrite app_length in X. rewrite X. pose proof (a_q _ _ _ A). unfold size_ok in HQ. rewrite Z.mod_small; [lia|]. unfold W. lia. }
      destruct (Z.ltb_spec 0 (b_cbs s)); injection H as <-; cbn [set_worker b_msgs b_queue b_worker b_counted b_accepted wbuf phase length] in *;
      (split; [lia|]); intros _; (split; [apply (C eq_refl)|]); [lia|constructor].
    + injection H as <-. cbn in *. split; [lia|]. discriminate.
  - destruct (b_queue s) as [|x q] eqn:Eq; injection H as <-.
    + cbn [set_worker b_msgs b_queue b_worker b_counted b_accepted wbuf phase] in *. rewrite Eq. split; [lia|]. intros L. specialize (C L). tauto.
    + cbn [set_queue set_worker b_msgs b_queue b_worker b_counted b_accepted] in *. destruct (Nat.eqb_spec (length (buf ++ [x])) M); cbn [wbuf phase] in *; rewrite app_length in *; cbn [length] in *;
      (split; [lia|]); intros L; specialize (C L); (split; [tauto|]); [split; [lia|]|lia]. intros X. destruct buf; discriminate.
  - destruct buf as [|x buf]; injection H as <-.
    + cbn [set_worker b_msgs b_queue b_worker b_counted b_accepted wbuf phase length] in *. split; [cbn; lia|]. intros L. specialize (C L). tauto.
    + cbn [export set_worker b_msgs b_queue b_worker b_counted b_accepted wbuf phase length Nat.eqb] in *. split; [lia|]. intros L. specialize (C L). split; [tauto|]. split; [tauto|discriminate].
  - injection H as <-. cbn [set_cbs set_worker b_msgs b_queue b_worker b_counted b_accepted] in *.
    destruct (logs && (Z.of_nat (tot + cn) <? t)%Z) eqn:El.
    + apply andb_prop in El. destruct El as [L El]. apply Z.ltb_lt in El. destruct (C L) as (C1 & C2 & C3). cbn [wbuf phase length].
      destruct (Nat.eqb_spec cn 0); [specialize (C3 e); rewrite C3 in C2; cbn in C2; lia|]. split; [lia|]. intros _. split; [exact C1|]. lia.
    + cbn [wbuf phase length]. split; [destruct (cn =? 0); lia|]. intros L. specialize (C L). tauto.
  - destruct (reply_frame j r s) as (F1 & F2 & F3 & F4).
    assert (X : work (set_worker (after_job j) (reply j r s)) < work s /\ calm logs (set_worker (after_job j) (reply j r s))).
    { unfold work, calm. cbn [set_worker b_msgs b_queue b_worker b_counted b_accepted]. rewrite F1, F2, F3, F4, Ew.
      split; [destruct j; cbn; lia|]. intros L. specialize (C L). destruct j; cbn; tauto. }
    unfold work, calm in X. rewrite Ew in X. destruct j as [| |k]; [injection H as <-; exact X|injection H as <-; exact X|].
    destruct logs; injection H as <-; exact X.
  - discriminate.
Qed.

(** Left alone, for every sequence of exporter answers, the worker gets through
    all messages within a number of steps linear in what is queued, and then no
    caller waits for it.  For spans this holds from every reachable state; for
    log records when no emit is between send and count, and the worker is not in
    the middle of an export. *)
Theorem C38_worker_finishes : forall logs Q M acts s oks, size_ok Q -> brun logs Q M b_init acts = Some s ->
  (logs = true -> (forall i e, nth_error (b_emits s) i = Some e -> e_pc e <> EInc true) /\
                  (b_worker s = WWait \/ b_worker s = WFlag \/ exists j, b_worker s = WStart j)) ->
  10 * length (b_msgs s) + 11 * length (b_queue s) + 10 * length (wbuf (b_worker s)) + 7 <= length oks ->
  exists k s', brun logs Q M s (map WStep (firstn k oks)) = Some s' /\
  (b_worker s' = WExited \/
   (b_worker s' = WWait /\ b_msgs s' = [] /\ forall id c, nth_error (b_ctls s') id = Some c -> c_pc c <> CWait)).
Proof.
  intros logs Q M acts s oks HQ H Hl Hn.
  assert (C : calm logs s).
  { intros L. destruct (Hl L) as [Hs Hw]. split; [apply (settled_counted logs s (i_B _ _ _ _ (binv_reach logs Q M HQ _ _ H)) Hs)|].
    destruct Hw as [->|[->|(j & ->)]]; exact I. }
  assert (Hw : work s <= length oks).
  { unfold work. enough (phase (b_worker s) <= 7) by lia. destruct (b_worker s); cbn; try lia. destruct (_ =? _); lia. }
  clear Hl Hn. revert acts s oks H C Hw.
  assert (Hmain : forall n acts s oks, work s <= n -> brun logs Q M b_init acts = Some s -> calm logs s -> work s <= length oks ->
    exists k s', brun logs Q M s (map WStep (firstn k oks)) = Some s' /\
    (b_worker s' = WExited \/ (b_worker s' = WWait /\ b_msgs s' = [] /\ forall id c, nth_error (b_ctls s') id = Some c -> c_pc c <> CWait))).
  { induction n as [|n IH]; intros acts s oks Hn H C Hw.
    - exists 0, s. split; [reflexivity|]. destruct (bstep logs Q M s (WStep true)) as [s'|] eqn:E; [|eapply C38_worker_never_stuck; eassumption].
      pose proof (proj1 (work_step logs Q M s true s' HQ (binv_reach logs Q M HQ _ _ H) C E)). lia.
    - destruct oks as [|ok oks].
      + exists 0, s. split; [reflexivity|]. destruct (bstep logs Q M s (WStep true)) as [s'|] eqn:E; [|eapply C38_worker_never_stuck; eassumption].
        pose proof (proj1 (work_step logs Q M s true s' HQ (binv_reach logs Q M HQ _ _ H) C E)). cbn [length] in Hw. lia.
      + destruct (bstep logs Q M s (WStep ok)) as [s1|] eqn:E.
        * destruct (work_step logs Q M s ok s1 HQ (binv_reach logs Q M HQ _ _ H) C E) as [Hlt C1].
          destruct (IH (acts ++ [WStep ok]) s1 oks) as (k & s' & Hr & Hd); [lia| |exact C1|cbn [length] in Hw; lia|].
          { rewrite run_app, H. cbn [brun]. rewrite E. reflexivity. }
          exists (S k), s'. split; [|exact Hd]. cbn [firstn map brun]. rewrite E. exact Hr.
        * exists 0, s. split; [reflexivity|]. eapply C38_worker_never_stuck; eassumption. }
  intros acts s oks H C Hw. exact (Hmain _ acts s oks (le_n _) H C Hw).
Qed.
Print Assumptions C38_worker_finishes.

(** Without these conditions a log flush may never be answered: an item exported
    before it was counted takes current_batch_size below zero, that is to
    2^64 - 1, which a flush then takes for the number of records to export.
    Here every emit has returned and the queue is empty, and yet the worker spins
    forever, whatever the exporter answers. *)
Definition spin_setup : list baction :=
  [Emit; Emit; EStep 0; EStep 1; EStep 1; Tick] ++ map WStep (repeat true 7) ++
  [Flush; CStep 0; WStep true; WStep true; EStep 0].
Theorem C107_flush_answered_refuted : exists s, brun true 10 10 b_init spin_setup = Some s /\
  (forall i e, nth_error (b_emits s) i = Some e -> e_pc e = EDone OAccepted) /\ b_queue s = [] /\ b_msgs s = [] /\
  forall oks, exists s', brun true 10 10 s (map WStep oks) = Some s' /\
    b_worker s' <> WWait /\ b_worker s' <> WExited /\ b_exported s' = b_exported s /\
    exists c, nth_error (b_ctls s') 0 = Some c /\ c_pc c = CWait.
Proof.
  destruct (brun true 10 10 b_init spin_setup) as [s|] eqn:E; [|vm_compute in E; discriminate].
  exists s. split; [reflexivity|]. vm_compute in E. injection E as <-. split; [|split; [reflexivity|split; [reflexivity|]]].
  { intros [|[|i]] e H; [injection H as <-; reflexivity|injection H as <-; reflexivity|destruct i; discriminate]. }
  match goal with |- forall oks, exists s', brun _ _ _ ?s (map WStep oks) = Some s' /\ _ => set (s0 := s) end.
  destruct (bstep true 10 10 s0 (WStep true)) as [s1|] eqn:E1; [|vm_compute in E1; discriminate].
  destruct (bstep true 10 10 s1 (WStep true)) as [s2|] eqn:E2; [|vm_compute in E1; injection E1 as <-; vm_compute in E2; discriminate].
  assert (E3 : forall ok, bstep true 10 10 s2 (WStep ok) = Some s0).
  { intros ok. vm_compute in E1; injection E1 as <-. vm_compute in E2; injection E2 as <-. vm_compute. reflexivity. }
  assert (E1' : forall ok, bstep true 10 10 s0 (WStep ok) = Some s1) by (intros ok; vm_compute in E1; injection E1 as <-; reflexivity).
  assert (E2' : forall ok, bstep true 10 10 s1 (WStep ok) = Some s2).
  { intros ok. vm_compute in E1; injection E1 as <-. vm_compute in E2; injection E2 as <-. reflexivity. }
  assert (Hall : forall oks, (exists s', brun true 10 10 s0 (map WStep oks) = Some s' /\ (s' = s0 \/ s' = s1 \/ s' = s2)) /\
                 (exists s', brun true 10 10 s1 (map WStep oks) = Some s' /\ (s' = s0 \/ s' = s1 \/ s' = s2)) /\
                 (exists s', brun true 10 10 s2 (map WStep oks) = Some s' /\ (s' = s0 \/ s' = s1 \/ s' = s2))).
  { induction oks as [|ok oks (I0 & I1 & I2)]; [split; [|split]; eexists; (split; [reflexivity|auto])|].
    cbn [map brun]. rewrite E1', E2', E3. auto. }
  intros oks. destruct (proj1 (Hall oks)) as (s' & H & Hs). exists s'. split; [exact H|].
  clear H Hall E1' E2' E3. vm_compute in E1; injection E1 as <-. vm_compute in E2; injection E2 as <-.
  destruct Hs as [->|[->| ->]]; (split; [discriminate|split; [discriminate|split; [reflexivity|eexists; split; reflexivity]]]).
Qed.
Print Assumptions C107_flush_answered_refuted.

Example C38_nonvacuous :
  match brun true 3 2 b_init [Emit; EStep 0; EStep 0; Emit; EStep 1; EStep 1; EStep 1; EStep 1; EStep 1; Flush; CStep 0] with
  | Some s => b_worker s = WWait /\ b_msgs s = [MExport; MFlush 0] /\ b_queue s = [0; 1]
  | None => False
  end.
Proof. vm_compute. auto. Qed.

(** * C71: the export trigger is not lost *)

(** While the flag export_message_sent is up, somebody will take it down: an
    export message is queued, the worker has just taken one, or an emit call is
    about to queue one or to give up. *)
Theorem C71_flag_accounted_for : forall logs Q M acts s, size_ok Q -> brun logs Q M b_init acts = Some s -> b_sent s = true ->
  In MExport (b_msgs s) \/ b_worker s = WFlag \/
  exists i e, nth_error (b_emits s) i = Some e /\ ((exists a, e_pc e = EMsg a) \/ (exists a, e_pc e = EReset a)).
Proof.
  intros logs Q M acts s HQ H Hs. destruct (i_F _ _ _ _ (binv_reach logs Q M HQ _ _ H) Hs) as [X|[X|(i & e & Hi & He)]]; auto.
  right; right. exists i, e. split; [exact Hi|]. unfold holds_flag in He. destruct (e_pc e); try contradiction; eauto.
Qed.
Print Assumptions C71_flag_accounted_for.

(** So when all calls have returned and the worker waits for messages, the flag
    is down, and the next emit that finds a full batch sends an export message. *)
Theorem C71_next_full_batch_triggers : forall logs Q M acts s i s1 s2 s3 s4 e, size_ok Q -> brun logs Q M b_init acts = Some s ->
  b_worker s = WWait -> b_msgs s = [] -> nth_error (b_emits s) i = Some e -> e_pc e = EInc true ->
  (forall j x, nth_error (b_emits s) j = Some x -> j <> i -> exists o, e_pc x = EDone o) ->
  (Z.of_nat M <= (b_cbs s + 1) mod 2 ^ 64)%Z ->
  bstep logs Q M s (EStep i) = Some s1 -> bstep logs Q M s1 (EStep i) = Some s2 ->
  bstep logs Q M s2 (EStep i) = Some s3 -> bstep logs Q M s3 (EStep i) = Some s4 ->
  b_msgs s4 = [MExport] /\ fate s4 i OAccepted.
Proof.
  intros logs Q M acts s i s1 s2 s3 s4 e HQ H Hw Hm Hi Hp Hq HM H1 H2 H3 H4.
  assert (Hs : b_sent s = false).
  { destruct (b_sent s) eqn:E; [|reflexivity]. destruct (C71_flag_accounted_for logs Q M acts s HQ H E) as [X|[X|(j & x & Hj & Hx)]].
    - rewrite Hm in X. destruct X.
    - congruence.
    - destruct (Nat.eq_dec j i) as [->|Hne]; [rewrite Hi in Hj; injection Hj as <-; destruct Hx as [[a Hx]|[a Hx]]; congruence|].
      destruct (Hq j x Hj Hne) as (o & Ho). destruct Hx as [[a Hx]|[a Hx]]; congruence. }
  assert (Hset : forall l : list ecall, forall x y, nth_error l i = Some y -> nth_error (set_nth i x l) i = Some x).
  { intros l x y Hy. rewrite nth_set_nth, Nat.eqb_refl, Hy. reflexivity. }
  cbn in H1. unfold emit_step in H1. rewrite Hi, Hp in H1. fold W in HM. apply Z.leb_le in HM. rewrite HM in H1. injection H1 as <-.
  cbn in H2. unfold emit_step in H2. cbn in H2. rewrite Hi, (Hset _ _ _ Hi) in H2. cbn in H2. rewrite Hs in H2. injection H2 as <-.
  cbn in H3. unfold emit_step in H3. cbn in H3. rewrite Hi, (Hset _ _ _ Hi) in H3. cbn in H3.
  erewrite !Hset in H3 by (erewrite ?Hset; eauto). cbn in H3. rewrite Hs in H3. injection H3 as <-.
  cbn in H4. unfold emit_step in H4. cbn in H4. rewrite Hi, (Hset _ _ _ Hi) in H4.
  erewrite !Hset in H4 by (erewrite ?Hset; eauto). cbn in H4. rewrite Hw, Hm in H4. cbn in H4. injection H4 as <-.
  cbn. rewrite ?Hm. split; [reflexivity|]. unfold fate. cbn. rewrite Hi, (Hset _ _ _ Hi).
  erewrite !Hset by (erewrite ?Hset; eauto). eexists. split; reflexivity.
Qed.
Print Assumptions C71_next_full_batch_triggers.

Example C71_nonvacuous :
  match brun false 3 2 b_init [Emit; EStep 0; EStep 0; EStep 0; Emit; EStep 1; EStep 1] with
  | Some s => b_worker s = WWait /\ b_msgs s = [] /\ ((b_cbs s + 1) mod 2 ^ 64 = 2)%Z /\
    exists e, nth_error (b_emits s) 1 = Some e /\ e_pc e = EInc true
  | None => False
  end.
Proof. vm_compute. split; [reflexivity|split; [reflexivity|split; [reflexivity|eexists; split; reflexivity]]]. Qed.
