(** C170–C172: the resource a provider's data is exported with. *)
From Coq Require Import List Arith ZArith Bool Lia.
From Verif Require Import ResFlowModel.
From Verif Require BatchModel BatchProofs AsyncModel.
Import ListNotations.

(** * The processors with a thread of their own *)
Section threaded.
Import BatchModel.
Context {R : Type}.
Variables (logs : bool) (Q M : nat).
Notation xstep := (@xstep R logs Q M). Notation xrun := (@xrun R logs Q M).

(** Before the provider is built nobody but the worker does anything; afterwards the
    resource is not set again. *)
Definition alone (a : xaction R) : Prop := match a with XDo (WStep _) | XDo Tick => True | _ => False end.
Definition user (a : xaction R) : Prop := match a with XSet _ => False | _ => True end.

Lemma xrun_app acts acts' s : xrun s (acts ++ acts') = match xrun s acts with Some s1 => xrun s1 acts' | None => None end.
Proof. revert s. induction acts as [|a acts IH]; intros s; [reflexivity|]. cbn. destruct (xstep s a); [apply IH|reflexivity]. Qed.

(** What the processor does apart from the resource is what it does without. *)
Lemma xstep_base s a s' : xstep s a = Some s' ->
  x_b s' = x_b s /\ b_exported (x_b s') = b_exported (x_b s) /\ x_carried s' = x_carried s
  \/ exists b, a = XDo b /\ bstep logs Q M (x_b s) b = Some (x_b s').
Proof.
  destruct a as [r|b]; cbn [ResFlowModel.xstep]; intros H.
  - injection H as <-. left. destruct (x_room s); cbn; auto.
  - destruct b;
    try (match type of H with context [bstep ?l ?q ?m ?b ?a] => destruct (bstep l q m b a) eqn:E end; [|discriminate]; injection H as <-;
         right; eexists; split; [reflexivity|exact E]).
    + destruct (b_worker (x_b s)) eqn:Ew, (x_pending s) as [|[[|?] ?] ?];
      try (injection H as <-; left; cbn; auto; fail);
      (match type of H with context [bstep ?l ?q ?m ?b ?a] => destruct (bstep l q m b a) eqn:E end; [|discriminate]; injection H as <-;
       right; eexists; split; [reflexivity|exact E]).
    + destruct (x_pending s); [|discriminate].
      match type of H with context [bstep ?l ?q ?m ?b ?a] => destruct (bstep l q m b a) eqn:E end; [|discriminate]; injection H as <-;
      right; eexists; split; [reflexivity|exact E].
Qed.

Ltac inv_step H :=
  unfold worker_step, reply in H; cbv zeta in H;
  repeat (match type of H with context [match ?x with _ => _ end] => destruct x eqn:? end; try discriminate);
  try discriminate; injection H as <-.

Lemma wstep_exported b ok b' : bstep logs Q M b (WStep ok) = Some b' ->
  length (b_exported b') = length (b_exported b) + if exports_now (b_worker b) then 1 else 0.
Proof.
  cbn [bstep]. intros H. destruct (b_worker b) eqn:Ew; cbn [exports_now];
  unfold worker_step in H; rewrite Ew in H; inv_step H; cbn; rewrite ?app_length; cbn; lia.
Qed.

(** An export notes the resource held. *)
Lemma xstep_len s a s' : xstep s a = Some s' ->
  length (x_carried s) = length (b_exported (x_b s)) -> length (x_carried s') = length (b_exported (x_b s')).
Proof.
  intros H L. destruct a as [r|b]; cbn [ResFlowModel.xstep] in H.
  - injection H as <-. destruct (x_room s); exact L.
  - destruct b;
    try (match type of H with context [bstep ?l ?q ?m ?b ?a] => destruct (bstep l q m b a) eqn:E end; [|discriminate]; injection H as <-;
         cbn [x_carried x_b]; destruct (BatchProofs.frame logs Q M _ _ _ E eq_refl) as (_ & -> & _); exact L).
    + destruct (b_worker (x_b s)) eqn:Ew, (x_pending s) as [|[[|?] ?] ?];
      try (injection H as <-; exact L);
      (match type of H with context [bstep ?l ?q ?m ?b ?a] => destruct (bstep l q m b a) eqn:E end; [|discriminate]; injection H as <-;
       cbn [x_carried x_b]; rewrite app_length, (wstep_exported _ _ _ E), Ew, L; cbn [exports_now]; repeat match goal with |- context [match ?l with [] => _ | _ :: _ => _ end] => destruct l end; reflexivity).
    + destruct (x_pending s); [|discriminate].
      match type of H with context [bstep ?l ?q ?m ?b ?a] => destruct (bstep l q m b a) eqn:E end; [|discriminate]; injection H as <-.
      cbn [x_carried x_b]. cbn [bstep] in E. destruct (b_worker (x_b s)), (b_msgs (x_b s)); try discriminate. injection E as <-. exact L.
Qed.
Lemma xrun_len : forall acts s s', xrun s acts = Some s' ->
  length (x_carried s) = length (b_exported (x_b s)) -> length (x_carried s') = length (b_exported (x_b s')).
Proof.
  induction acts as [|a acts IH]; cbn; intros s s' H L; [injection H as <-; exact L|].
  destruct (xstep s a) as [s1|] eqn:E; [|discriminate]. eapply IH; [exact H|]. eapply xstep_len; eauto.
Qed.

(** The pass the worker is in, if any, was started by the timer; [k] batches were
    exported in it. *)
Definition pass_ok (strict : bool) (k : nat) (w : wpc) : Prop :=
  if strict then k = 0 /\ w = WWait
  else match w with
       | WWait => logs = false -> k <= 1
       | WStart JNone => k = 0
       | WPull JNone _ _ _ _ | WExport JNone _ _ _ _ => logs = false -> k = 0
       | WSub JNone _ _ _ _ | WReply JNone _ => logs = false -> k <= 1
       | _ => False
       end.

Lemma pass_step strict k b ok b' : bstep logs Q M b (WStep ok) = Some b' -> pass_ok strict k (b_worker b) -> b_worker b <> WWait ->
  pass_ok strict (k + if exports_now (b_worker b) then 1 else 0) (b_worker b').
Proof.
  cbn [bstep]. intros H P N. destruct strict; [destruct P; congruence|]. unfold pass_ok in *.
  destruct (b_worker b) as [| |j|j bu tg tt r|j bu tg tt r|j c tg tt r|j r|] eqn:Ew; try contradiction; try (exfalso; congruence);
  destruct j; try contradiction;
  unfold worker_step in H; rewrite Ew in H; inv_step H; cbn; intros; rewrite ?Nat.add_0_r; subst; try lia; auto;
  try (match goal with H1 : logs = false -> _, H2 : logs = false |- _ => specialize (H1 H2); lia end);
  match goal with Hl : logs = false, He : (logs && _)%bool = true |- _ => rewrite Hl in He; discriminate end.
Qed.

(** Before the message is taken, and after. *)
Definition flow (strict : bool) (r0 r : R) (s : xstate R) : Prop :=
  (exists k, x_pending s = [(0, r)] /\ x_res s = r0 /\ x_carried s = repeat r0 k /\ pass_ok strict k (b_worker (x_b s)))
  \/ exists k m, x_pending s = [] /\ x_res s = r /\ x_carried s = repeat r0 k ++ repeat r m /\ (strict = true -> k = 0) /\ (logs = false -> k <= 1).

Lemma repeat_snoc {X} (x : X) n : repeat x n ++ [x] = repeat x (n + 1).
Proof. induction n; [reflexivity|cbn; f_equal; assumption]. Qed.

Lemma flow_step strict r0 r s a s' : user a -> flow strict r0 r s -> xstep s a = Some s' -> flow strict r0 r s'.
Proof.
  intros U F H. destruct a as [x|b]; [contradiction|]. cbn [ResFlowModel.xstep] in H.
  destruct F as [(k & Fp & Fr & Fc & Fw)|(k & m & Fp & Fr & Fc & Fk & Fl)].
  - rewrite Fp in H. destruct b; try discriminate;
    try (match type of H with context [bstep ?l ?q ?m ?b ?a] => destruct (bstep l q m b a) eqn:E end; [|discriminate]; injection H as <-;
         left; exists k; cbn [x_b x_pending x_res x_carried]; destruct (BatchProofs.frame logs Q M _ _ _ E eq_refl) as (-> & _); auto; fail).
    assert (D : b_worker (x_b s) = WWait \/ b_worker (x_b s) <> WWait) by (destruct (b_worker (x_b s)); auto; right; discriminate).
    destruct D as [Ew|Ew].
    + rewrite Ew in H. injection H as <-. right. exists k, 0. cbn [x_b x_pending x_res x_carried repeat]. rewrite app_nil_r.
      rewrite Ew in Fw. split; [reflexivity|]. split; [reflexivity|]. split; [exact Fc|].
      split; [intros ->; apply Fw|]. unfold pass_ok in Fw. destruct strict; [intros; destruct Fw; lia|exact Fw].
    + assert (H' : match bstep logs Q M (x_b s) (WStep ok) with
                   | Some b => Some (mk_x b [(0, r)] (x_res s) (x_carried s ++ if exports_now (b_worker (x_b s)) then [x_res s] else []))
                   | None => None end = Some s') by (rewrite <- H; destruct (b_worker (x_b s)); [congruence|..]; reflexivity).
      clear H. destruct (bstep logs Q M (x_b s) (WStep ok)) eqn:E; [|discriminate]. injection H' as <-.
      left. exists (k + if exports_now (b_worker (x_b s)) then 1 else 0). cbn [x_b x_pending x_res x_carried].
      split; [reflexivity|]. split; [exact Fr|]. split; [|eapply pass_step; eauto].
      rewrite Fc, Fr. destruct (exports_now _); [apply repeat_snoc|rewrite app_nil_r, Nat.add_0_r; reflexivity].
  - rewrite Fp in H.
    assert (G : exists m', x_pending s' = [] /\ x_res s' = r /\ x_carried s' = repeat r0 k ++ repeat r m').
    { destruct b;
      try (match type of H with context [bstep ?l ?q ?m ?b ?a] => destruct (bstep l q m b a) eqn:E end; [|discriminate]; injection H as <-;
           exists m; cbn [x_b x_pending x_res x_carried]; auto; fail).
      assert (H' : match bstep logs Q M (x_b s) (WStep ok) with
                   | Some b => Some (mk_x b [] (x_res s) (x_carried s ++ if exports_now (b_worker (x_b s)) then [x_res s] else []))
                   | None => None end = Some s') by (rewrite <- H; destruct (b_worker (x_b s)); reflexivity).
      clear H. destruct (bstep logs Q M (x_b s) (WStep ok)) eqn:E; [|discriminate]. injection H' as <-.
      exists (m + if exports_now (b_worker (x_b s)) then 1 else 0). cbn [x_b x_pending x_res x_carried].
      split; [reflexivity|]. split; [exact Fr|]. rewrite Fc, Fr, <- app_assoc. f_equal.
      destruct (exports_now _); [apply repeat_snoc|rewrite app_nil_r, Nat.add_0_r; reflexivity]. }
    destruct G as (m' & ? & ? & ?). right. exists k, m'. auto.
Qed.
Lemma flow_run strict r0 r : forall acts s s', Forall user acts -> flow strict r0 r s -> xrun s acts = Some s' -> flow strict r0 r s'.
Proof.
  induction acts as [|a acts IH]; cbn; intros s s' U F H; [injection H as <-; exact F|].
  inversion U; subst. destruct (xstep s a) as [s1|] eqn:E; [|discriminate]. eapply IH; [eassumption| |exact H]. eapply flow_step; eauto.
Qed.

(** While the worker is alone it goes around without finding anything. *)
Definition idle (r0 : R) (s : xstate R) : Prop :=
  x_pending s = [] /\ x_res s = r0 /\ x_carried s = [] /\ b_msgs (x_b s) = [] /\ b_queue (x_b s) = [] /\ b_cbs (x_b s) = 0%Z /\
  match b_worker (x_b s) with
  | WWait | WStart JNone | WReply JNone _ => True
  | WPull JNone [] _ _ _ | WExport JNone [] _ _ _ | WSub JNone 0 _ _ _ => logs = false
  | _ => False
  end.
Lemma idle_step r0 s a s' : alone a -> idle r0 s -> xstep s a = Some s' -> idle r0 s'.
Proof.
  intros A (Ip & Ir & Ic & Im & Iq & Ib & Iw) H. destruct a as [x|b]; [contradiction|]. cbn [ResFlowModel.xstep] in H. rewrite Ip in H.
  destruct b; try contradiction.
  - assert (H' : match bstep logs Q M (x_b s) (WStep ok) with
                 | Some b => Some (mk_x b [] (x_res s) (x_carried s ++ if exports_now (b_worker (x_b s)) then [x_res s] else []))
                 | None => None end = Some s') by (rewrite <- H; destruct (b_worker (x_b s)); reflexivity).
    clear H. cbn [bstep] in H'. unfold worker_step, reply in H'. unfold idle.
    destruct (b_worker (x_b s)) as [| |j|j bu tg tt q|j bu tg tt q|j c tg tt q|j q|] eqn:Ew; try contradiction; try (rewrite Im in H'; discriminate);
    destruct j; try contradiction; cbn in H'.
    + rewrite Ib in H'. cbn in H'. destruct logs eqn:El; injection H' as <-; cbn; rewrite ?app_nil_r; auto 10.
    + destruct bu; [|contradiction]. rewrite Iq in H'. injection H' as <-; cbn; rewrite ?app_nil_r; auto 10.
    + destruct bu; [|contradiction]. injection H' as <-; cbn; rewrite ?app_nil_r; auto 10.
    + destruct c; [|contradiction]. rewrite Iw in H'. cbn in H'. injection H' as <-; cbn. rewrite Ib. cbn. rewrite ?app_nil_r; auto 10.
    + injection H' as <-; cbn; rewrite ?app_nil_r; auto 10.
  - cbn [bstep] in H. destruct (b_worker (x_b s)) eqn:Ew; try discriminate. rewrite Im in H. injection H as <-.
    unfold idle; cbn; auto 10.
Qed.
Lemma idle_run r0 : forall acts s s', Forall alone acts -> idle r0 s -> xrun s acts = Some s' -> idle r0 s'.
Proof.
  induction acts as [|a acts IH]; cbn; intros s s' U F H; [injection H as <-; exact F|].
  inversion U; subst. destruct (xstep s a) as [s1|] eqn:E; [|discriminate]. eapply IH; [eassumption| |exact H]. eapply idle_step; eauto.
Qed.

Lemma set_flow (strict : bool) r0 r s s' : idle r0 s -> (strict = true -> b_worker (x_b s) = WWait) -> xstep s (XSet r) = Some s' -> flow strict r0 r s'.
Proof.
  intros (Ip & Ir & Ic & Im & Iq & Ib & Iw) Hs H. cbn [ResFlowModel.xstep] in H. injection H as <-.
  assert (x_room s = true) as ->.
  { unfold x_room. rewrite Im, Ip. destruct (b_worker (x_b s)); try contradiction; reflexivity. }
  left. exists 0. cbn [x_b x_pending x_res x_carried]. rewrite Ip, Im. cbn.
  split; [reflexivity|]. split; [exact Ir|]. split; [exact Ic|].
  unfold pass_ok. destruct strict; [auto|].
  destruct (b_worker (x_b s)) as [| |j|j bu tg tt q|j bu tg tt q|j c tg tt q|j q|]; try contradiction; auto with arith; destruct j; auto with arith.
Qed.

(** The run without the [SetResource] messages. *)
Lemma xrun_base : forall acts s s', xrun s acts = Some s' -> exists bs, brun logs Q M (x_b s) bs = Some (x_b s').
Proof.
  induction acts as [|a acts IH]; cbn; intros s s' H; [injection H as <-; exists []; reflexivity|].
  destruct (xstep s a) as [s1|] eqn:E; [|discriminate]. destruct (IH _ _ H) as [bs Hb].
  destruct (xstep_base _ _ _ E) as [(Eb & _)|(b & _ & Eb)]; [rewrite <- Eb; eauto|].
  exists (b :: bs). cbn. rewrite Eb. exact Hb.
Qed.

Lemma all_same (r : R) : forall n, Forall (eq r) (repeat r n).
Proof. intros n. apply Forall_forall. intros x Hx. symmetry. exact (repeat_spec _ _ _ Hx). Qed.

Lemma split_run r0 r acts1 acts2 s : Forall alone acts1 -> xrun (x_init r0) (acts1 ++ XSet r :: acts2) = Some s ->
  exists s1 s2, xrun (x_init r0) acts1 = Some s1 /\ idle r0 s1 /\ xstep s1 (XSet r) = Some s2 /\ xrun s2 acts2 = Some s.
Proof.
  intros A H. rewrite xrun_app in H. destruct (xrun (x_init r0) acts1) as [s1|] eqn:E1; [|discriminate].
  exists s1. cbn [ResFlowModel.xrun] in H. destruct (xstep s1 (XSet r)) as [s2|] eqn:E2; [|discriminate].
  exists s2. split; [reflexivity|]. split; [|auto].
  eapply idle_run; [exact A| |exact E1]. unfold idle; cbn; auto 10.
Qed.
End threaded.

(** C170.  The thread waits for messages when [build] hands the resource over: every batch
    it ever exports is exported with that resource, whatever the other threads do. *)
Theorem C170_threaded {R} (logs : bool) (Q M : nat) (r0 r : R) acts1 s1 acts2 s :
  Forall alone acts1 -> xrun logs Q M (x_init r0) acts1 = Some s1 -> BatchModel.b_worker (x_b s1) = BatchModel.WWait ->
  Forall user acts2 -> xrun logs Q M (x_init r0) (acts1 ++ XSet r :: acts2) = Some s ->
  length (x_carried s) = length (BatchModel.b_exported (x_b s)) /\ Forall (eq r) (x_carried s).
Proof.
  intros A H1 Hw U H. split; [eapply xrun_len; [exact H|reflexivity]|].
  destruct (split_run _ _ _ _ _ _ _ _ A H) as (s1' & s2 & E1 & I & E2 & E3). rewrite H1 in E1. injection E1 as <-.
  pose proof (set_flow logs Q M true r0 r s1 s2 I (fun _ => Hw) E2) as F.
  destruct (flow_run logs Q M _ _ _ _ _ _ U F E3) as [(k & _ & _ & -> & [-> _])|(k & m & _ & _ & -> & Hk & _)]; [constructor|].
  rewrite (Hk eq_refl). apply all_same.
Qed.
Print Assumptions C170_threaded.

(** C170.  In any case only the first batches can carry the resource the exporter was made
    with, and with spans only the very first one. *)
Theorem C170_first_only {R} (logs : bool) (Q M : nat) (r0 r : R) acts1 acts2 s :
  Forall alone acts1 -> Forall user acts2 -> xrun logs Q M (x_init r0) (acts1 ++ XSet r :: acts2) = Some s ->
  exists k m, x_carried s = repeat r0 k ++ repeat r m /\ k + m = length (BatchModel.b_exported (x_b s)) /\ (logs = false -> k <= 1).
Proof.
  intros A U H. pose proof (xrun_len logs Q M _ _ _ H eq_refl) as L.
  destruct (split_run _ _ _ _ _ _ _ _ A H) as (s1 & s2 & E1 & I & E2 & E3).
  pose proof (set_flow logs Q M false r0 r s1 s2 I (fun E => match Bool.diff_false_true E with end) E2) as F.
  destruct (flow_run logs Q M _ _ _ _ _ _ U F E3) as [(k & _ & _ & C & P)|(k & m & _ & _ & C & _ & Hk)].
  - exists k, 0. rewrite app_nil_r. split; [exact C|]. rewrite C, repeat_length in L. split; [lia|].
    unfold pass_ok in P. destruct (BatchModel.b_worker (x_b s)) as [| |j|j bu tg tt q|j bu tg tt q|j c tg tt q|j q|]; try contradiction; try exact P;
    destruct j; try contradiction; try exact P; intros El; try specialize (P El); lia.
  - exists k, m. rewrite C, app_length, !repeat_length in L. auto.
Qed.
Print Assumptions C170_first_only.

(** C170.  Handing over the resource changes nothing else: what the processor does is what
    it does in some run without those messages, so C32–C38 and C71 hold as they are. *)
Theorem C170_nothing_else {R} (logs : bool) (Q M : nat) (r0 : R) acts s :
  xrun logs Q M (x_init r0) acts = Some s -> exists bs, BatchModel.brun logs Q M BatchModel.b_init bs = Some (x_b s).
Proof. apply xrun_base. Qed.
Print Assumptions C170_nothing_else.

(** The thread goes around once, the provider is built, a span ends, the timer fires. *)
Example C170_nonvacuous :
  let one := [XDo BatchModel.Emit; XDo (BatchModel.EStep 0); XDo (BatchModel.EStep 0); XDo (BatchModel.EStep 0)] in
  let around := XDo BatchModel.Tick :: repeat (XDo (BatchModel.WStep true)) 5 in
  let acts2 := XDo (BatchModel.WStep true) :: one ++ around in
  Forall alone around /\ Forall user acts2 /\
  option_map (fun s => BatchModel.b_worker (x_b s)) (xrun false 8 4 (x_init 0) around) = Some BatchModel.WWait /\
  option_map (fun s => (x_carried s, BatchModel.b_exported (x_b s))) (xrun false 8 4 (x_init 0) (around ++ XSet 7 :: acts2)) = Some ([7], [[0]]).
Proof. cbn [repeat app]. split; [repeat constructor|]. split; [repeat constructor|]. split; reflexivity. Qed.

(** C171.  The timer fires just before [build] hands the resource over and the first span
    (record) is there before the thread looks: it is exported with the wrong resource. *)
Theorem C171_every_batch_refuted :
  ~ (forall (logs : bool) (Q M r0 r : nat) acts1 acts2 s,
       Forall alone acts1 -> Forall user acts2 -> xrun logs Q M (x_init r0) (acts1 ++ XSet r :: acts2) = Some s ->
       Forall (eq r) (x_carried s)).
Proof.
  intros H.
  specialize (H false 8 4 0 7 [XDo BatchModel.Tick]
    ([XDo BatchModel.Emit; XDo (BatchModel.EStep 0); XDo (BatchModel.EStep 0); XDo (BatchModel.EStep 0)] ++ repeat (XDo (BatchModel.WStep true)) 4)).
  match type of H with forall s, _ -> _ -> ?x = _ -> _ => let y := eval vm_compute in x in match y with Some ?v => specialize (H v) end end.
  assert (F : Forall (eq 7) [0]) by (apply H; [repeat constructor|cbn; repeat constructor|reflexivity]).
  inversion F. discriminate.
Qed.
Print Assumptions C171_every_batch_refuted.
(** The same of log records. *)
Theorem C171_logs_refuted :
  exists acts1 acts2 s, Forall (@alone nat) acts1 /\ Forall user acts2 /\
    xrun true 8 4 (x_init 0) (acts1 ++ XSet 7 :: acts2) = Some s /\ x_carried s = [0] /\ BatchModel.b_exported (x_b s) = [[0]].
Proof.
  exists [XDo BatchModel.Tick],
    ([XDo BatchModel.Emit; XDo (BatchModel.EStep 0); XDo (BatchModel.EStep 0)] ++ repeat (XDo (BatchModel.WStep true)) 4).
  eexists. split; [repeat constructor|]. split; [cbn; repeat constructor|]. split; [vm_compute; reflexivity|]. split; reflexivity.
Qed.
Print Assumptions C171_logs_refuted.

(** * The processors on an async runtime: one channel *)
Section async.
Import AsyncModel.
Context {A R : Type}.
Variables (sampled : A -> bool) (cap maxb : nat) (spans : bool).
Notation step := (step sampled cap maxb spans).
Notation ystep := (@ystep A R sampled cap maxb spans). Notation yrun := (@yrun A R sampled cap maxb spans).

(** Nothing is emitted before the provider is built; afterwards the resource is not set again. *)
Definition quiet (a : yaction A R) : Prop := match a with YSet _ | YDo (AEmit _) => False | _ => True end.
Definition yuser (a : yaction A R) : Prop := match a with YSet _ => False | _ => True end.
Definition is_rec (m : @msg A) : bool := match m with MRec _ => true | _ => false end.

Definition yidle (s : ystate A R) : Prop :=
  y_pending s = [] /\ y_carried s = [] /\ st_buf (y_a s) = [] /\ existsb is_rec (st_queue (y_a s)) = false.
Definition yflow (r : R) (s : ystate A R) : Prop :=
  Forall (fun x => fst x = r) (y_carried s) /\
  ((y_pending s = [] /\ y_res s = r)
   \/ (exists n, y_pending s = [(n, r)] /\ st_buf (y_a s) = [] /\
         n <= length (st_queue (y_a s)) /\ existsb is_rec (firstn n (st_queue (y_a s))) = false)
   \/ st_worker (y_a s) = WExited).

Lemma begun_in (r : R) (es : list (@event A)) x : In x (begun r es) -> fst x = r.
Proof. induction es as [|e es IH]; cbn; [contradiction|]. destruct e; cbn; auto. intros [<-|?]; auto. Qed.

Ltac break H :=
  repeat (match type of H with context [match ?x with _ => _ end] => destruct x eqn:? end; try discriminate).

(** With nothing in the buffer and no record next, nothing is exported and the buffer stays empty. *)
Lemma step_calm s (a : @action A) s' es : (forall x, a <> AEmit x) -> step s a = Some (s', es) -> st_buf s = [] ->
  (a = ATake -> match st_queue s with MRec _ :: _ => False | _ => True end) ->
  (forall r : R, begun r es = []) /\ st_buf s' = [] /\
  match a with
  | ATake => st_queue s' = tl (st_queue s)
  | _ => (exists l, st_queue s' = st_queue s ++ l /\ existsb is_rec l = false) \/ st_queue s' = [] /\ st_worker s' = WExited
  end.
Proof.
  intros N H B T. destruct s as [q buf w cs d]. cbn in B. subst buf. unfold AsyncModel.step, export in H.
  destruct a; [exfalso; eapply N; reflexivity|..]; cbn [st_queue] in T; break H; try (exfalso; exact (T eq_refl));
  injection H as <- <-; cbn; (split; [reflexivity|]); (split; [reflexivity|]); auto;
  try (left; exists []; rewrite app_nil_r; auto; fail); left; eexists; split; reflexivity.
Qed.
Lemma step_emit s x s' es : step s (AEmit x) = Some (s', es) ->
  st_buf s' = st_buf s /\ (forall r : R, begun r es = []) /\ exists l, st_queue s' = st_queue s ++ l.
Proof.
  intros H. destruct s as [q buf w cs d]. unfold AsyncModel.step in H. break H; injection H as <- <-; cbn;
  split; auto; split; auto; try (exists []; rewrite app_nil_r; reflexivity); eexists; reflexivity.
Qed.

Lemma ystep_idle s a s' : quiet a -> yidle s -> ystep s a = Some s' -> yidle s'.
Proof.
  intros Qa (Ip & Ic & Ib & Iq) H. destruct a as [x|a]; [contradiction|]. cbn [ResFlowModel.ystep] in H. rewrite Ip in H.
  assert (H' : match step (y_a s) a with
               | Some (b, es) => Some (mk_y b [] (y_res s) (y_carried s ++ begun (y_res s) es)) | None => None end = Some s').
  { rewrite <- H. destruct a; cbn [ahead map]; try destruct (st_worker (y_a s)); reflexivity. }
  clear H. destruct (step (y_a s) a) as [[b es]|] eqn:E; [|discriminate]. injection H' as <-.
  destruct (step_calm _ _ _ _ (fun x (e : a = AEmit x) => ltac:(subst a; exact Qa)) E Ib) as (B & Bb & Bq).
  { intros ->. destruct (st_queue (y_a s)) as [|[]]; try exact I. discriminate Iq. }
  unfold yidle; cbn. rewrite Ic, B. split; [reflexivity|]. split; [reflexivity|]. split; [exact Bb|].
  assert (D : st_queue b = tl (st_queue (y_a s)) \/ (exists l, st_queue b = st_queue (y_a s) ++ l /\ existsb is_rec l = false) \/ st_queue b = [])
    by (destruct a; auto; destruct Bq as [?|[? ?]]; auto).
  destruct D as [->|[(l & -> & Hl)| ->]]; [|rewrite existsb_app, Iq, Hl; reflexivity|reflexivity].
  destruct (st_queue (y_a s)); [reflexivity|]. cbn in Iq |- *. apply orb_false_iff in Iq. apply Iq.
Qed.

Lemma step_exited s (a : @action A) s' es : step s a = Some (s', es) -> st_worker s = WExited ->
  st_worker s' = WExited /\ (forall r : R, begun r es = []) /\ a <> ATake.
Proof.
  intros H W. destruct s as [q buf w cs d]. cbn in W. subst w. unfold AsyncModel.step, export in H.
  destruct a; break H; try discriminate; injection H as <- <-; cbn; repeat split; discriminate.
Qed.
Lemma firstn_keep {X} n (q l : list X) : n <= length q -> firstn n (q ++ l) = firstn n q.
Proof. intros H. rewrite firstn_app. replace (n - length q) with 0 by lia. rewrite firstn_O. apply app_nil_r. Qed.

Lemma ystep_flow r s a s' : yuser a -> yflow r s -> ystep s a = Some s' -> yflow r s'.
Proof.
  intros Ua (Fc & F) H. destruct a as [x|a]; [contradiction|]. cbn [ResFlowModel.ystep] in H.
  destruct F as [(Fp & Fr)|[(n & Fp & Fb & Fl & Fq)|Fe]]; [rewrite Fp in H|rewrite Fp in H|].
  - assert (H' : match step (y_a s) a with
                 | Some (b, es) => Some (mk_y b [] (y_res s) (y_carried s ++ begun (y_res s) es)) | None => None end = Some s').
    { rewrite <- H. destruct a; cbn [ahead map]; try destruct (st_worker (y_a s)); reflexivity. }
    clear H. destruct (step (y_a s) a) as [[b es]|] eqn:E; [|discriminate]. injection H' as <-. split; cbn; [|left; auto].
    apply Forall_app. split; [exact Fc|]. rewrite Fr. apply Forall_forall. intros x Hx. eapply begun_in; exact Hx.
  - assert (D : (a = ATake /\ n = 0 /\ s' = mk_y (y_a s) [] r (y_carried s)) \/
                (a = ATake -> n <> 0) /\
                match step (y_a s) a with
                | Some (b, es) => Some (mk_y b (match a with ATake => [(pred n, r)] | _ => [(n, r)] end) (y_res s) (y_carried s ++ begun (y_res s) es))
                | None => None end = Some s').
    { destruct a; try (right; split; [discriminate|exact H]).
      destruct (st_worker (y_a s)) eqn:Ew;
      try (exfalso; destruct (y_a s) as [q buf w cs d]; cbn in Ew; subst w; cbn in H; discriminate).
      destruct n; [left; injection H as <-; auto|right; split; [discriminate|exact H]]. }
    clear H. destruct D as [(-> & -> & ->)|(Hn & H)].
    + split; cbn; [exact Fc|left; auto].
    + destruct (step (y_a s) a) as [[b es]|] eqn:E; [|discriminate]. injection H as <-.
      assert (De : (exists x, a = AEmit x) \/ forall x, a <> AEmit x) by (destruct a; eauto; right; discriminate).
      destruct De as [(x & ->)|Ne].
      * destruct (step_emit _ _ _ _ E) as (Eb & B & l & El). split; cbn; [rewrite B, app_nil_r; exact Fc|].
        right; left. exists n. split; [reflexivity|]. rewrite Eb, El. split; [exact Fb|].
        rewrite app_length, firstn_keep by exact Fl. split; [lia|exact Fq].
      * destruct (step_calm _ _ _ _ Ne E Fb) as (B & Bb & Bq).
        { intros ->. specialize (Hn eq_refl). destruct n; [congruence|]. destruct (st_queue (y_a s)) as [|[] ]; try exact I. discriminate Fq. }
        split; cbn; [rewrite B, app_nil_r; exact Fc|]. right.
        assert (Dt : a = ATake \/ a <> ATake) by (destruct a; auto; right; discriminate).
        destruct Dt as [-> |Nt].
        -- left. specialize (Hn eq_refl). destruct n as [|n]; [congruence|]. exists n. split; [reflexivity|]. split; [exact Bb|]. rewrite Bq.
           destruct (st_queue (y_a s)) as [|m q]; cbn in Fl, Fq |- *; [lia|]. apply orb_false_iff in Fq. split; [lia|apply Fq].
        -- assert (Bq' : (exists l, st_queue b = st_queue (y_a s) ++ l /\ existsb is_rec l = false) \/ st_queue b = [] /\ st_worker b = WExited)
             by (destruct a; try exact Bq; congruence). clear Bq.
           destruct Bq' as [(l & El & Hl)|(_ & Ex)]; [left|right; exact Ex].
           exists n. split; [destruct a; try reflexivity; congruence|]. split; [exact Bb|]. rewrite El, app_length, firstn_keep by exact Fl. split; [lia|exact Fq].
  - assert (D : match step (y_a s) a with
                | Some (b, es) => exists p, Some (mk_y b p (y_res s) (y_carried s ++ begun (y_res s) es)) = Some s'
                | None => False end).
    { destruct a; rewrite ?Fe in H; match type of H with context [match ?x with Some _ => _ | None => _ end] => destruct x as [[b es]|] eqn:E end;
      try discriminate; eexists; exact H. }
    clear H. destruct (step (y_a s) a) as [[b es]|] eqn:E; [|contradiction]. destruct D as (p & D). injection D as <-.
    destruct (step_exited _ _ _ _ E Fe) as (Ex & B & _). split; cbn; [rewrite B, app_nil_r; exact Fc|auto].
Qed.

Lemma yidle_run : forall acts s s', Forall quiet acts -> yidle s -> yrun s acts = Some s' -> yidle s'.
Proof.
  induction acts as [|a acts IH]; cbn; intros s s' U F H; [injection H as <-; exact F|].
  inversion U; subst. destruct (ystep s a) as [s1|] eqn:E; [|discriminate]. eapply IH; [eassumption| |exact H]. eapply ystep_idle; eauto.
Qed.
Lemma yflow_run r : forall acts s s', Forall yuser acts -> yflow r s -> yrun s acts = Some s' -> yflow r s'.
Proof.
  induction acts as [|a acts IH]; cbn; intros s s' U F H; [injection H as <-; exact F|].
  inversion U; subst. destruct (ystep s a) as [s1|] eqn:E; [|discriminate]. eapply IH; [eassumption| |exact H]. eapply ystep_flow; eauto.
Qed.
Lemma yrun_app acts acts' s : yrun s (acts ++ acts') = match yrun s acts with Some s1 => yrun s1 acts' | None => None end.
Proof. revert s. induction acts as [|a acts IH]; intros s; [reflexivity|]. cbn. destruct (ystep s a); [apply IH|reflexivity]. Qed.

(** The exports of the run are those of the processor, each with the resource held. *)
Fixpoint batches (es : list (@event A)) : list (list A) :=
  match es with [] => [] | EExportBegin b :: es => b :: batches es | _ :: es => batches es end.
Lemma begun_batches (r : R) es : map snd (begun r es) = batches es.
Proof. induction es as [|[] es IH]; cbn; try exact IH; auto. f_equal. exact IH. Qed.
Lemma batches_app l m : batches (l ++ m) = batches l ++ batches m.
Proof. induction l as [|[] l IH]; cbn; try exact IH; auto. f_equal. exact IH. Qed.
Lemma yrun_base : forall acts s s', yrun s acts = Some s' ->
  exists bs es, run sampled cap maxb spans (y_a s) bs = Some (y_a s', es) /\ map snd (y_carried s') = map snd (y_carried s) ++ batches es.
Proof.
  induction acts as [|a acts IH]; cbn; intros s s' H; [injection H as <-; exists [], []; rewrite app_nil_r; auto|].
  destruct (ystep s a) as [s1|] eqn:E; [|discriminate]. destruct (IH _ _ H) as (bs & es & Hb & Hc).
  assert (D : y_a s1 = y_a s /\ y_carried s1 = y_carried s \/
              exists b e, step (y_a s) b = Some (y_a s1, e) /\ y_carried s1 = y_carried s ++ begun (y_res s) e).
  { clear -E. destruct a as [x|a]; cbn [ResFlowModel.ystep] in E.
    - injection E as <-. left. destruct (y_room _ s); auto.
    - assert (D : (exists p r, mk_y (y_a s) p r (y_carried s) = s1) \/
                  exists p, match step (y_a s) a with Some (b, es) => Some (mk_y b p (y_res s) (y_carried s ++ begun (y_res s) es)) | None => None end = Some s1).
      { destruct a; try (right; eexists; exact E).
        destruct (st_worker (y_a s)), (y_pending s) as [|[[|?] ?] ?]; try (right; eexists; exact E). left. injection E as <-. eauto. }
      destruct D as [(p & r & <-)|(p & D)]; [left; auto|right]. destruct (step (y_a s) a) as [[b es]|] eqn:Es; [|discriminate].
      injection D as <-. exists a, es. auto. }
  destruct D as [(Ea & Ec)|(b & e & Eb & Ec)].
  - rewrite <- Ea, <- Ec. eauto.
  - exists (b :: bs), (e ++ es). cbn [run]. rewrite Eb, Hb. split; [reflexivity|].
    rewrite Hc, Ec, map_app, begun_batches, batches_app, app_assoc. reflexivity.
Qed.
End async.

(** C170.  On an async runtime the resource goes through the channel of the records: every
    batch carries it, if there was room for the message. *)
Theorem C170_async {A R} (sampled : A -> bool) (cap maxb : nat) (spans : bool) (r0 r : R) acts1 s1 acts2 s :
  Forall quiet acts1 -> yrun sampled cap maxb spans (y_init r0) acts1 = Some s1 -> y_room cap s1 = true ->
  Forall yuser acts2 -> yrun sampled cap maxb spans (y_init r0) (acts1 ++ YSet r :: acts2) = Some s ->
  Forall (fun x => fst x = r) (y_carried s) /\
  exists bs es, AsyncModel.run sampled cap maxb spans AsyncModel.init bs = Some (y_a s, es) /\ map snd (y_carried s) = batches es.
Proof.
  intros A1 H1 Hr U H. split; [|exact (yrun_base sampled cap maxb spans _ _ _ H)].
  assert (I1 : yidle s1) by (eapply yidle_run; [exact A1| |exact H1]; unfold yidle; cbn; auto).
  rewrite yrun_app, H1 in H. cbn [yrun ystep] in H. rewrite Hr in H.
  destruct I1 as (Ip & Ic & Ib & Iq). eapply yflow_run; [exact U| |exact H].
  split; cbn; [rewrite Ic; constructor|]. right; left. exists (length (AsyncModel.st_queue (y_a s1))). rewrite Ip, firstn_all. auto.
Qed.
Print Assumptions C170_async.

(** A flush before the provider is built; then a span, a flush, and its export. *)
Example C170_async_nonvacuous :
  let acts1 := [YDo (AsyncModel.ACall AsyncModel.KFlush); YDo AsyncModel.ATick] in
  let acts2 := [YDo (AsyncModel.AEmit 5); YDo AsyncModel.ATake; YDo AsyncModel.AAnswer; YDo AsyncModel.ATake; YDo AsyncModel.ATake; YDo AsyncModel.ATick] in
  Forall quiet acts1 /\ Forall yuser acts2 /\
  option_map (y_room 8) (yrun (fun _ => true) 8 4 true (y_init 0) acts1) = Some true /\
  option_map y_carried (yrun (fun _ : nat => true) 8 4 true (y_init 0) (acts1 ++ YSet 7 :: acts2)) = Some [(7, [5])].
Proof. split; [repeat constructor|]. split; [repeat constructor|]. split; reflexivity. Qed.

(** * The resource a provider is built with *)
(** C172.  The processors get the resources given to the builder, merged in order, or the
    default; whatever other providers the process has built. *)
Definition asked {R} (merge : R -> R -> R) (default : R) (rs : list R) : R :=
  match rs with [] => default | r :: rs => fold_left merge rs r end.
Lemma given_asked {R} (merge : R -> R -> R) default rs :
  match given merge rs with Some r => r | None => default end = asked merge default rs.
Proof.
  destruct rs as [|r rs]; [reflexivity|]. unfold given. cbn [fold_left with_resource asked].
  revert r. induction rs as [|x rs IH]; intros r; [reflexivity|]. cbn [fold_left with_resource]. apply IH.
Qed.
Theorem C172_tracer_providers {R} (merge : R -> R -> R) (same : R -> R -> bool) (default : R) :
  forall l static, Forall2 (fun rs r => r = asked merge default rs \/ same r (asked merge default rs) = true)
    l (tracer_builds merge same default static l).
Proof.
  induction l as [|rs l IH]; intros static; cbn; [constructor|]. constructor; [|apply IH].
  rewrite given_asked. destruct (same _ (asked merge default rs)) eqn:E; auto.
Qed.
Print Assumptions C172_tracer_providers.
Theorem C172_logger_providers {R} (merge : R -> R -> R) (default : R) rs :
  logger_build merge default rs = asked merge default rs.
Proof. apply given_asked. Qed.
Print Assumptions C172_logger_providers.

From stdpp Require Import base gmap.
From Verif Require ResourceModel ResourceProps.
(** C172.  Key by key: the last of the given resources that has the key decides. *)
Fixpoint last_with {V} (k : list N) (rs : list (@ResourceModel.resource V)) : option V :=
  match rs with
  | [] => None
  | r :: rs => match last_with k rs with Some v => Some v | None => ResourceModel.r_attrs r !! k end
  end.
Theorem C172_last_one_decides {V} (default r : @ResourceModel.resource V) rs k :
  ResourceModel.r_attrs (asked ResourceModel.merge default (r :: rs)) !! k = last_with k (r :: rs).
Proof.
  cbn [asked]. revert r. induction rs as [|x rs IH]; intros r; cbn [fold_left]; [reflexivity|].
  rewrite IH. cbn [last_with]. rewrite ResourceProps.merge_lookup. unfold ResourceProps.or_else.
  destruct (last_with k rs); [reflexivity|]. destruct (ResourceModel.r_attrs x !! k); reflexivity.
Qed.
Print Assumptions C172_last_one_decides.

(** Two providers; the second asks for something else and gets it. *)
Example C172_nonvacuous :
  let kv (k v : N) := ResourceModel.res_new [([k], v)] in
  let same (a b : @ResourceModel.resource N) :=
    bool_decide (ResourceModel.r_attrs a = ResourceModel.r_attrs b) && bool_decide (ResourceModel.r_url a = ResourceModel.r_url b) in
  map (fun r => map (fun k => ResourceModel.r_attrs r !! [k]) [1%N; 2%N])
    (tracer_builds ResourceModel.merge same (kv 9%N 9%N) None [[kv 1%N 5%N]; [kv 1%N 6%N; kv 2%N 7%N; kv 1%N 8%N]; [kv 1%N 5%N]])
  = [[Some 5%N; None]; [Some 8%N; Some 7%N]; [Some 5%N; None]].
Proof. vm_compute. reflexivity. Qed.
