(** C69: the telemetry API inside callbacks; when an active span ends. *)
From Coq Require Import List NArith Bool Arith Lia.
From Verif Require Import ContextModel ReentryModel.
Import ListNotations.

(** ** Programs *)
(** Touches the thread's context in no way. *)
Definition silent (o : op) : bool := match o with Clone _ | DropCx _ | EndSpan _ => true | _ => false end.
(** Reads the current context, starts spans, but neither attaches nor detaches. *)
Fixpoint calm (o : op) : bool := match o with Attach _ | Detach _ => false | Map b => forallb calm b | _ => true end.
(** Does what it likes, except that the closures given to map_current, get_active_span and
    the propagators are calm. *)
Definition orderly (o : op) : bool := match o with Map b => forallb calm b | _ => true end.
(** Never ends a span by hand. *)
Fixpoint never_ends (o : op) : bool := match o with EndSpan _ => false | Map b => forallb never_ends b | _ => true end.

Definition same_borrow (w w' : world) : Prop := w_shared w' = w_shared w /\ w_excl w' = w_excl w.
Lemma same_refl w : same_borrow w w. Proof. split; reflexivity. Qed.
Lemma same_trans a b c : same_borrow a b -> same_borrow b c -> same_borrow a c.
Proof. intros [H1 H2] [H3 H4]. split; congruence. Qed.

(** A run is fine when it does not panic and leaves the borrow as it was. *)
Definition fine (w : world) (r : result) : Prop := match r with Done w' => same_borrow w w' | Panic _ => False | OutOfFuel => True end.
Lemma fine_bind w r f : fine w r -> (forall w', same_borrow w w' -> fine w' (f w')) -> fine w (bind r f).
Proof.
  destruct r as [w'|w'|]; cbn; auto. intros H1 H2. specialize (H2 w' H1). destruct (f w') as [v|v|]; cbn in *; auto. eapply same_trans; eassumption.
Qed.
Lemma fine_weaken w w' r : same_borrow w w' -> fine w' r -> fine w r.
Proof. intros H. destruct r; cbn; auto. intros H'. eapply same_trans; eassumption. Qed.

(** [set_none] does not panic on an index inside the vector. *)
Lemma set_none_some A : forall (l : list (option A)) i, i < length l -> exists l', set_none l i = Some l'.
Proof.
  induction l as [|x l IH]; intros [|i] H; cbn in H; try lia; cbn [set_none]; [eexists; reflexivity|]. destruct (IH i) as [l' ->]; [lia|]. eexists. reflexivity.
Qed.
Lemma pop_some (s : cstack cx) id : exists s', cs_pop_id s id = Some s'.
Proof.
  unfold cs_pop_id. destruct (N.eqb id BASE_POS || N.eqb id MAX_POS); [eexists; reflexivity|]. cbv zeta.
  destruct (N.eqb_spec id (N.of_nat (length (cs_stack s)) mod 65536)); [eexists; reflexivity|].
  destruct (N.leb_spec (N.of_nat (length (cs_stack s)) mod 65536) id); [eexists; reflexivity|].
  destruct (set_none_some _ (cs_stack s) (N.to_nat id)) as [l' ->]; [|eexists; reflexivity].
  pose proof (N.mod_le (N.of_nat (length (cs_stack s))) 65536 ltac:(discriminate)). lia.
Qed.

Section safety.
Context (on_start on_end on_log : list op).
Notation exec := (exec on_start on_end on_log).
Notation step := (step on_start on_end on_log).

Lemma end_fine run s w : (forall w, fine w (run on_end w)) -> fine w (end_span on_end run s w).
Proof. intros H. unfold end_span. destruct (ended w s); [apply same_refl|]. eapply fine_weaken; [|apply H]. split; reflexivity. Qed.
Lemma drop_fine run c w : (forall w, fine w (run on_end w)) -> fine w (drop_cx on_end run c w).
Proof. intros H. unfold drop_cx. destruct c as [s|]; [|apply same_refl]. destruct (owned w s); [apply same_refl|]. apply end_fine, H. Qed.

Lemma var_fine run v w : (forall w, fine w (run on_end w)) -> fine w (drop_var on_end run v w).
Proof. intros H. unfold drop_var. destruct (nth_error _ _) as [[c|]|]; [|apply same_refl..]. eapply fine_weaken; [|apply drop_fine, H]. split; reflexivity. Qed.
(** Silent programs are fine in any state when [on_end] is silent. *)
Lemma silent_fine : forallb silent on_end = true -> forall n p w, forallb silent p = true -> fine w (exec n p w).
Proof.
  intros He. induction n as [|n IH]; intros p w Hp; [exact I|]. destruct p as [|o p]; [apply same_refl|]. cbn [forallb] in Hp. apply andb_prop in Hp. destruct Hp as [Ho Hp].
  cbn [ReentryModel.exec]. apply fine_bind; [|intros w' _; apply IH, Hp].
  assert (E : forall w, fine w (exec n on_end w)) by (intros v; apply IH, He).
  destruct o; try discriminate; cbn [ReentryModel.step].
  - destruct (nth_error _ _) as [[c|]|]; split; reflexivity.
  - apply var_fine, E.
  - destruct (nth_error _ _) as [[[s|]|]|]; [|apply same_refl..]. apply end_fine, E.
Qed.

Lemma shared_fine (f : world -> result) w : w_excl w = false -> (forall w', w_excl w' = false -> fine w' (f w')) -> fine w (shared f w).
Proof.
  intros H Hf. unfold shared. rewrite H. specialize (Hf (set_borrow (S (w_shared w)) false w) eq_refl). destruct (f _) as [w'|w'|]; cbn in *; auto.
  split; cbn; [reflexivity|rewrite H; reflexivity].
Qed.
Lemma exclusively_fine (f : world -> result) w : w_excl w = false -> w_shared w = 0 -> (forall w', fine w' (f w')) -> fine w (exclusively f w).
Proof.
  intros H1 H2 Hf. unfold exclusively. rewrite H1, H2. cbn [orb Nat.ltb Nat.leb]. specialize (Hf (set_borrow 0 true w)). destruct (f _) as [w'|w'|]; cbn in *; auto.
  split; cbn; congruence.
Qed.
Lemma calm_fine : forallb silent on_end = true -> forallb calm on_start = true ->
  forall n p w, forallb calm p = true -> w_excl w = false -> fine w (exec n p w).
Proof.
  intros He Hs. induction n as [|n IH]; intros p w Hp Hw; [exact I|]. destruct p as [|o p]; [apply same_refl|]. cbn [forallb] in Hp. apply andb_prop in Hp. destruct Hp as [Ho Hp].
  cbn [ReentryModel.exec]. apply fine_bind; [|intros w' [_ H]; apply IH; [exact Hp|congruence]].
  assert (E : forall w, fine w (exec n on_end w)) by (intros v; apply silent_fine; exact He).
  destruct o; try discriminate; cbn [ReentryModel.step].
  - apply shared_fine; [exact Hw|]. intros w' _. split; reflexivity.
  - apply shared_fine; [exact Hw|]. intros w' H. apply IH; [exact Ho|exact H].
  - apply fine_bind; [apply shared_fine; [exact Hw|]; intros w' H; apply IH; assumption|]. intros w' _. split; reflexivity.
  - destruct (nth_error _ _) as [[c|]|]; split; reflexivity.
  - apply var_fine, E.
  - destruct (nth_error _ _) as [[[s|]|]|]; [|apply same_refl..]. apply end_fine, E.
Qed.
Lemma orderly_fine : forallb silent on_end = true -> forallb silent on_log = true -> forallb calm on_start = true ->
  forall n p w, forallb orderly p = true -> w_excl w = false -> w_shared w = 0 -> fine w (exec n p w).
Proof.
  intros He Hl Hs. induction n as [|n IH]; intros p w Hp Hw Hz; [exact I|]. destruct p as [|o p]; [apply same_refl|]. cbn [forallb] in Hp. apply andb_prop in Hp. destruct Hp as [Ho Hp].
  cbn [ReentryModel.exec]. apply fine_bind; [|intros w' [H1 H2]; apply IH; [exact Hp|congruence|congruence]].
  assert (E : forall w, fine w (exec n on_end w)) by (intros v; apply silent_fine; exact He).
  assert (L : forall w, fine w (warn on_log (exec n) w)) by (intros v; eapply fine_weaken; [|apply silent_fine; [exact He|exact Hl]]; split; reflexivity).
  destruct o; cbn [ReentryModel.step].
  - apply shared_fine; [exact Hw|]. intros w' _. split; reflexivity.
  - apply shared_fine; [exact Hw|]. intros w' H. apply calm_fine; auto.
  - apply fine_bind; [apply shared_fine; [exact Hw|]; intros w' H; apply calm_fine; auto|]. intros w' _. split; reflexivity.
  - destruct (nth_error _ _) as [[c|]|]; [|apply same_refl..]. apply exclusively_fine; [exact Hw|exact Hz|]. intros w'. destruct (cs_push (w_stack w') c) as [s id]. cbv zeta.
    destruct (N.eqb id MAX_POS); [|split; reflexivity]. eapply fine_weaken; [|apply fine_bind; [apply L|intros w'' _; apply var_fine, E]]. split; reflexivity.
  - destruct (nth_error _ _) as [[id|]|]; [|apply same_refl..]. cbv zeta. destruct (_ && _); [|split; reflexivity].
    eapply fine_weaken; [|apply exclusively_fine; [exact Hw|exact Hz|]]; [split; reflexivity|]. intros w'. destruct (pop_some (w_stack w') id) as [s' ->]. destruct (N.ltb _ _); [apply L|].
    eapply fine_weaken; [|apply drop_fine, E]. split; reflexivity.
  - destruct (nth_error _ _) as [[c|]|]; split; reflexivity.
  - apply var_fine, E.
  - destruct (nth_error _ _) as [[[s|]|]|]; [|apply same_refl..]. apply end_fine, E.
Qed.
End safety.

(** When span-end callbacks and the receiver of internal logs keep their hands off the
    context, and samplers, span-start callbacks and closures run by map_current attach
    nothing, no program panics, however long it runs and however it nests. *)
Theorem C69_no_panic : forall on_start on_end on_log p n w,
  forallb silent on_end = true -> forallb silent on_log = true -> forallb calm on_start = true -> forallb orderly p = true ->
  exec on_start on_end on_log n p w_init <> Panic w.
Proof.
  intros on_start on_end on_log p n w He Hl Hs Hp E. pose proof (orderly_fine on_start on_end on_log He Hl Hs n p w_init Hp eq_refl eq_refl) as H. rewrite E in H. exact H.
Qed.
Print Assumptions C69_no_panic.

(** ** Callbacks that read the context *)
Section reading.
Context (on_start on_end on_log : list op).
Notation exec := (exec on_start on_end on_log).
(** Fine, or a panic after a callback was called inside an exclusive borrow. *)
Definition blamed (w : world) (r : result) : Prop :=
  match r with
  | Done w' => same_borrow w w' /\ (w_inside w = true -> w_inside w' = true)
  | Panic w' => w_inside w' = true
  | OutOfFuel => True
  end.
Lemma blamed_refl w : blamed w (Done w). Proof. split; [apply same_refl|auto]. Qed.
Lemma blamed_bind w r f : blamed w r -> (forall w', same_borrow w w' -> (w_inside w = true -> w_inside w' = true) -> blamed w' (f w')) -> blamed w (bind r f).
Proof.
  destruct r as [w'|w'|]; cbn; auto. intros [H1 H2] H3. specialize (H3 w' H1 H2). destruct (f w') as [v|v|]; cbn in *; auto. destruct H3 as [H3 H4]. split; [eapply same_trans; eassumption|auto].
Qed.
Lemma blamed_weaken w w' r : same_borrow w w' -> (w_inside w = true -> w_inside w' = true) -> blamed w' r -> blamed w r.
Proof. intros H1 H2. destruct r; cbn; auto. intros [H3 H4]. split; [eapply same_trans; eassumption|auto]. Qed.
(** Inside an exclusive borrow only if a callback was called there. *)
Definition marked (w : world) : Prop := w_excl w = true -> w_inside w = true.
Lemma marked_note w : marked (note_callback w).
Proof. intros H. cbn in *. rewrite H. apply orb_true_r. Qed.
Lemma note_inside w : w_inside w = true -> w_inside (note_callback w) = true.
Proof. cbn. intros ->. reflexivity. Qed.

Lemma end_blamed run s w : (forall w, marked w -> blamed w (run on_end w)) -> blamed w (end_span on_end run s w).
Proof.
  intros H. unfold end_span. destruct (ended w s); [apply blamed_refl|]. eapply blamed_weaken; [| |apply H, marked_note]; [split; reflexivity|]. intros X. apply note_inside. exact X.
Qed.
Lemma drop_blamed run c w : (forall w, marked w -> blamed w (run on_end w)) -> blamed w (drop_cx on_end run c w).
Proof. intros H. unfold drop_cx. destruct c as [s|]; [|apply blamed_refl]. destruct (owned w s); [apply blamed_refl|]. apply end_blamed, H. Qed.
Lemma var_blamed run v w : (forall w, marked w -> blamed w (run on_end w)) -> blamed w (drop_var on_end run v w).
Proof. intros H. unfold drop_var. destruct (nth_error _ _) as [[c|]|]; [|apply blamed_refl..]. eapply blamed_weaken; [| |apply drop_blamed, H]; [split; reflexivity|auto]. Qed.
Lemma shared_blamed (f : world -> result) w : marked w -> (forall w', marked w' -> blamed w' (f w')) -> blamed w (shared f w).
Proof.
  intros H Hf. unfold shared. destruct (w_excl w) eqn:E; [cbn; apply H; exact E|]. specialize (Hf (set_borrow (S (w_shared w)) false w)). destruct (f _) as [w'|w'|]; cbn in *; auto.
  - destruct Hf as [_ Hf]; [intros X; discriminate X|]. split; [split; cbn; [reflexivity|rewrite E; reflexivity]|exact Hf].
  - apply Hf. intros X. discriminate X.
Qed.
Lemma exclusively_blamed (f : world -> result) w : w_excl w = false -> w_shared w = 0 -> (forall w', blamed w' (f w')) -> blamed w (exclusively f w).
Proof.
  intros H1 H2 Hf. unfold exclusively. rewrite H1, H2. cbn [orb Nat.ltb Nat.leb]. specialize (Hf (set_borrow 0 true w)). destruct (f _) as [w'|w'|]; cbn in *; auto.
  destruct Hf as [_ Hf]. split; [split; cbn; congruence|exact Hf].
Qed.
Lemma calm_blamed : forallb calm on_end = true -> forallb calm on_start = true ->
  forall n p w, forallb calm p = true -> marked w -> blamed w (exec n p w).
Proof.
  intros He Hs. induction n as [|n IH]; intros p w Hp Hw; [exact I|]. destruct p as [|o p]; [apply blamed_refl|]. cbn [forallb] in Hp. apply andb_prop in Hp. destruct Hp as [Ho Hp].
  cbn [ReentryModel.exec]. apply blamed_bind; [|intros w' [_ H] H'; apply IH; [exact Hp|intros X; apply H', Hw; congruence]].
  assert (E : forall w, marked w -> blamed w (exec n on_end w)) by (intros v Hv; apply IH; assumption).
  destruct o; try discriminate; cbn [ReentryModel.step].
  - apply shared_blamed; [exact Hw|]. intros w' _. split; [split; reflexivity|auto].
  - apply shared_blamed; [exact Hw|]. intros w' H. apply IH; [exact Ho|exact H].
  - apply blamed_bind; [apply shared_blamed; [exact Hw|]; intros w' H; apply IH; assumption|]. intros w' _ _. split; [split; reflexivity|auto].
  - destruct (nth_error _ _) as [[c|]|]; (split; [split; reflexivity|auto]).
  - apply var_blamed, E.
  - destruct (nth_error _ _) as [[[s|]|]|]; [|apply blamed_refl..]. apply end_blamed, E.
Qed.
Lemma orderly_blamed : forallb calm on_end = true -> forallb calm on_log = true -> forallb calm on_start = true ->
  forall n p w, forallb orderly p = true -> w_excl w = false -> w_shared w = 0 -> blamed w (exec n p w).
Proof.
  intros He Hl Hs. induction n as [|n IH]; intros p w Hp Hw Hz; [exact I|]. destruct p as [|o p]; [apply blamed_refl|]. cbn [forallb] in Hp. apply andb_prop in Hp. destruct Hp as [Ho Hp].
  cbn [ReentryModel.exec]. apply blamed_bind; [|intros w' [H1 H2] _; apply IH; [exact Hp|congruence|congruence]].
  assert (M : marked w) by (intros X; congruence).
  assert (E : forall w, marked w -> blamed w (exec n on_end w)) by (intros v Hv; apply calm_blamed; assumption).
  assert (L : forall w, blamed w (warn on_log (exec n) w)).
  { intros v. eapply blamed_weaken; [| |apply calm_blamed; [exact He|exact Hs|exact Hl|apply marked_note]]; [split; reflexivity|apply note_inside]. }
  destruct o; cbn [ReentryModel.step].
  - apply shared_blamed; [exact M|]. intros w' _. split; [split; reflexivity|auto].
  - apply shared_blamed; [exact M|]. intros w' H. apply calm_blamed; auto.
  - apply blamed_bind; [apply shared_blamed; [exact M|]; intros w' H; apply calm_blamed; auto|]. intros w' _ _. split; [split; reflexivity|auto].
  - destruct (nth_error _ _) as [[c|]|]; [|apply blamed_refl..]. apply exclusively_blamed; [exact Hw|exact Hz|]. intros w'. destruct (cs_push (w_stack w') c) as [s id]. cbv zeta.
    destruct (N.eqb id MAX_POS); [|split; [split; reflexivity|auto]]. eapply blamed_weaken; [| |apply blamed_bind; [apply L|intros w'' _ _; apply var_blamed, E]]; [split; reflexivity|auto].
  - destruct (nth_error _ _) as [[id|]|]; [|apply blamed_refl..]. cbv zeta. destruct (_ && _); [|split; [split; reflexivity|auto]].
    eapply blamed_weaken; [| |apply exclusively_blamed; [exact Hw|exact Hz|]]; [split; reflexivity|auto|]. intros w'. destruct (pop_some (w_stack w') id) as [s' ->]. destruct (N.ltb _ _); [apply L|].
    eapply blamed_weaken; [| |apply drop_blamed, E]; [split; reflexivity|auto].
  - destruct (nth_error _ _) as [[c|]|]; (split; [split; reflexivity|auto]).
  - apply var_blamed, E.
  - destruct (nth_error _ _) as [[[s|]|]|]; [|apply blamed_refl..]. apply end_blamed, E.
Qed.
End reading.

(** When the callbacks do read the context, a panic happens only in runs where a span was
    ended by the drop of a guard, or an internal log was written by attach or by such a
    drop: spans ended by hand, or dropped anywhere else, never cause one. *)
Theorem C69_panic_needs_guard_drop : forall on_start on_end on_log p n w,
  forallb calm on_end = true -> forallb calm on_log = true -> forallb calm on_start = true -> forallb orderly p = true ->
  exec on_start on_end on_log n p w_init = Panic w -> w_inside w = true.
Proof.
  intros on_start on_end on_log p n w He Hl Hs Hp E. pose proof (orderly_blamed on_start on_end on_log He Hl Hs n p w_init Hp eq_refl eq_refl) as H. rewrite E in H. exact H.
Qed.
Print Assumptions C69_panic_needs_guard_drop.

(** But it does happen, for every processor that begins by looking at the current context:
    in_span, and a span marked active whose guard is dropped, panic in [on_end]. *)
Theorem C123_on_end_reads_context_refuted : forall rest on_log n, exists w w',
  exec [] (Current :: rest) on_log (8 + n) (in_span []) w_init = Panic w /\
  exec [] (Current :: rest) on_log (8 + n) (mark_active ++ [Detach 0]) w_init = Panic w'.
Proof. intros rest on_log n. do 2 eexists. split; lazy; reflexivity. Qed.
Print Assumptions C123_on_end_reads_context_refuted.

(** And attaching inside get_active_span, map_current, a sampler or [on_start] panics: that
    is what emitting a log there does with a SimpleLogProcessor, which enters a
    telemetry-suppressed scope. *)
Definition simple_log : list op := [Map []; Current; Attach 0; Detach 0].
Theorem C123_attach_in_closure_refuted : forall on_end on_log n, exists w w' w'',
  exec [] on_end on_log (6 + n) [Map simple_log] w_init = Panic w /\
  exec simple_log on_end on_log (6 + n) [Start] w_init = Panic w' /\
  exec [] on_end on_log (6 + n) simple_log w_init = Done w''.
Proof. intros on_end on_log n. do 3 eexists. split; [lazy; reflexivity|split; lazy; reflexivity]. Qed.
Print Assumptions C123_attach_in_closure_refuted.

(** ** When an active span ends *)
Definition owner (w : world) (s : nat) : Prop := cs_cur (w_stack w) = Some s \/ In (Some (Some s)) (cs_stack (w_stack w)) \/ In (Some (Some s)) (w_vars w).
Lemma owned_spec w s : owned w s = true <-> owner w s.
Proof.
  unfold owned, owner. cbn [existsb]. rewrite orb_true_iff, existsb_exists. unfold holds at 1. split.
  - intros [H|(c & H1 & H2)].
    + left. destruct (cs_cur (w_stack w)); [|discriminate]. apply Nat.eqb_eq in H. congruence.
    + right. unfold holds in H2. destruct c as [[t|]|]; try discriminate. apply Nat.eqb_eq in H2. subst t. apply in_app_iff in H1. exact H1.
  - intros [->|H]; [left; apply Nat.eqb_refl|]. right. exists (Some (Some s)). split; [apply in_app_iff; exact H|]. apply Nat.eqb_refl.
Qed.
Lemma ended_spec w s : ended w s = true <-> In s (w_ended w).
Proof.
  unfold ended. rewrite existsb_exists. split; [intros (x & H1 & H2); apply Nat.eqb_eq in H2; subst; exact H1|]. intros H. exists s. split; [exact H|apply Nat.eqb_refl].
Qed.

Definition on_stack (st : cstack cx) (s : nat) : Prop := cs_cur st = Some s \/ In (Some (Some s)) (cs_stack st).
Lemma skip_none_in (s : nat) : forall l : list (option cx), In (Some (Some s)) (skip_none l) <-> In (Some (Some s)) l.
Proof.
  induction l as [|[c|] l IH]; cbn [skip_none]; [reflexivity|reflexivity|]. rewrite IH. split; [right; exact H|]. intros [H|H]; [discriminate H|exact H].
Qed.
Lemma skip_none_head : forall (l : list (option cx)) t, skip_none l <> None :: t.
Proof. induction l as [|[c|] l IH]; intros t; cbn [skip_none]; [discriminate|discriminate|apply IH]. Qed.
Lemma set_none_in (s : nat) : forall (l : list (option cx)) i l', set_none l i = Some l' ->
  (In (Some (Some s)) l' -> In (Some (Some s)) l) /\
  (In (Some (Some s)) l -> In (Some (Some s)) l' \/ nth_error l i = Some (Some (Some s))).
Proof.
  induction l as [|x l IH]; intros [|i] l'; cbn [set_none nth_error]; try discriminate.
  - intros E. injection E as <-. split; [intros [H|H]; [discriminate H|right; exact H]|]. intros [->|H]; [right; reflexivity|left; right; exact H].
  - destruct (set_none l i) as [l0|] eqn:E; [|discriminate]. intros X. injection X as <-. destruct (IH _ _ E) as [H1 H2]. split.
    + intros [->|H]; [left; reflexivity|right; exact (H1 H)].
    + intros [->|H]; [left; left; reflexivity|]. destruct (H2 H) as [H3|H3]; [left; right; exact H3|right; exact H3].
Qed.
(** A pop lets go of [popped] and of nothing else. *)
Lemma pop_owners st id st' s : cs_pop_id st id = Some st' ->
  (on_stack st' s -> on_stack st s) /\ (on_stack st s -> on_stack st' s \/ popped st id = Some s) /\ (popped st id = Some s -> on_stack st s).
Proof.
  unfold cs_pop_id, popped. destruct (N.eqb id BASE_POS || N.eqb id MAX_POS); [intros E; injection E as <-; split; [auto|split; [auto|discriminate]]|]. cbv zeta.
  destruct (N.eqb id _).
  - intros E. injection E as <-. pose proof (skip_none_in s (rev (cs_stack st))) as Hs. rewrite <- in_rev in Hs. pose proof (skip_none_head (rev (cs_stack st))) as Hh. unfold on_stack.
    destruct (skip_none (rev (cs_stack st))) as [|[c|] t]; cbn [restore_top cs_cur cs_stack].
    + split; [intros [H|[]]; left; exact H|]. split; [intros [H|H]; [left; left; exact H|destruct (proj2 Hs H)]|discriminate].
    + rewrite <- in_rev. split; [intros [->|H]; right; apply Hs; [left; reflexivity|right; exact H]|]. split; [|intros ->; left; reflexivity].
      intros [->|H]; [right; reflexivity|]. left. apply Hs in H. destruct H as [H|H]; [left; congruence|right; exact H].
    + exfalso. exact (Hh t eq_refl).
  - destruct (N.leb _ id); [intros E; injection E as <-; split; [auto|split; [auto|discriminate]]|].
    destruct (set_none (cs_stack st) (N.to_nat id)) as [l'|] eqn:E; [|discriminate]. intros X. injection X as <-. destruct (set_none_in s _ _ _ E) as [H1 H2]. unfold on_stack. cbn [cs_cur cs_stack].
    split; [intros [H|H]; [left; exact H|right; exact (H1 H)]|]. split.
    + intros [H|H]; [left; left; exact H|]. destruct (H2 H) as [H3|H3]; [left; right; exact H3|right; rewrite H3; reflexivity].
    + destruct (nth_error (cs_stack st) (N.to_nat id)) as [[c|]|] eqn:En; try discriminate. intros ->. right. eapply nth_error_In, En.
Qed.
Lemma set_at_in (s : nat) : forall (l : list (option cx)) v c, nth_error l v = Some (Some c) ->
  (In (Some (Some s)) (set_at v None l) -> In (Some (Some s)) l) /\ (In (Some (Some s)) l -> In (Some (Some s)) (set_at v None l) \/ c = Some s).
Proof.
  induction l as [|x l IH]; intros [|v] c; cbn [nth_error set_at]; try discriminate.
  - intros E. injection E as ->. split; [intros [H|H]; [discriminate H|right; exact H]|]. intros [H|H]; [right; congruence|left; right; exact H].
  - intros E. destruct (IH _ _ E) as [H1 H2]. split; [intros [->|H]; [left; reflexivity|right; exact (H1 H)]|].
    intros [->|H]; [left; left; reflexivity|]. destruct (H2 H) as [H3|H3]; [left; right; exact H3|right; exact H3].
Qed.

Section lifetime.
Context (on_start on_end on_log : list op) (by_hand : bool).
Notation exec := (exec on_start on_end on_log).
(** Spans already created that nobody holds, but for [c], have been handed over, each once;
    and if no program ends spans by hand ([by_hand] is false) the others have not. *)
Definition inv_but (c : cx) (w : world) : Prop :=
  NoDup (w_ended w) /\ (forall s, In s (w_ended w) -> s < w_next w) /\ (forall s, owner w s \/ c = Some s -> s < w_next w) /\
  (forall s, s < w_next w -> owner w s \/ In s (w_ended w) \/ c = Some s) /\
  (by_hand = false -> forall s, In s (w_ended w) -> ~ owner w s).
Notation inv := (inv_but None).
Definition kept (r : result) : Prop := match r with Done w => inv w | _ => True end.
Lemma kept_bind r f : kept r -> (forall w, inv w -> kept (f w)) -> kept (bind r f).
Proof. destruct r; cbn; auto. Qed.
Lemma end_kept run s w : (forall w, inv w -> kept (run on_end w)) -> inv_but (Some s) w -> (by_hand = true \/ ~ owner w s) -> kept (end_span on_end run s w).
Proof.
  intros H (I1 & I2 & I3 & I4 & I5) Hs. unfold end_span. destruct (ended w s) eqn:E.
  - apply ended_spec in E. split; [exact I1|]. split; [exact I2|]. split; [intros x [X|X]; [apply I3; left; exact X|discriminate]|]. split; [|exact I5].
    intros x Hx. destruct (I4 x Hx) as [X|[X|X]]; [left; exact X|right; left; exact X|]. injection X as <-. right. left. exact E.
  - apply H. assert (N : ~ In s (w_ended w)) by (intros X; apply ended_spec in X; congruence). unfold inv_but. cbn.
    split; [constructor; assumption|]. split; [intros x [<-|X]; [apply I3; right; reflexivity|apply I2; exact X]|]. split; [intros x [X|X]; [apply I3; left; exact X|discriminate]|]. split.
    + intros x Hx. destruct (I4 x Hx) as [X|[X|X]]; [left; exact X|right; left; right; exact X|]. injection X as <-. right. left. left. reflexivity.
    + intros Hb x [<-|X]; [destruct Hs as [Hs|Hs]; [congruence|exact Hs]|apply (I5 Hb); exact X].
Qed.
Lemma drop_kept run c w : (forall w, inv w -> kept (run on_end w)) -> inv_but c w -> kept (drop_cx on_end run c w).
Proof.
  intros H Hi. unfold drop_cx. destruct c as [s|]; [|exact Hi]. destruct (owned w s) eqn:E.
  - apply owned_spec in E. destruct Hi as (I1 & I2 & I3 & I4 & I5). split; [exact I1|]. split; [exact I2|]. split; [intros x [X|X]; [apply I3; left; exact X|discriminate]|]. split; [|exact I5].
    intros x Hx. destruct (I4 x Hx) as [X|[X|X]]; [left; exact X|right; left; exact X|]. injection X as <-. left. exact E.
  - apply end_kept; [exact H|exact Hi|]. right. intros X. apply owned_spec in X. congruence.
Qed.
Lemma inv_ended_by_hand s w : inv w -> owner w s -> inv_but (Some s) w.
Proof.
  intros (I1 & I2 & I3 & I4 & I5) Ho. split; [exact I1|]. split; [exact I2|]. split; [intros x [X|X]; [apply I3; left; exact X|injection X as <-; apply I3; left; exact Ho]|]. split; [|exact I5].
  intros x Hx. destruct (I4 x Hx) as [X|[X|X]]; [left; exact X|right; left; exact X|discriminate].
Qed.
(** Replacing the places that hold spans. *)
Lemma inv_move c w w' : w_next w' = w_next w -> w_ended w' = w_ended w ->
  (forall s, owner w' s -> owner w s) -> (forall s, owner w s -> owner w' s \/ c = Some s) -> (forall s, c = Some s -> owner w s) -> inv w -> inv_but c w'.
Proof.
  intros E1 E2 H1 H2 H3 (I1 & I2 & I3 & I4 & I5). unfold inv_but. rewrite E1, E2. split; [exact I1|]. split; [exact I2|]. split; [|split].
  - intros s [X|X]; apply I3; left; [apply H1|apply H3]; exact X.
  - intros s Hs. destruct (I4 s Hs) as [X|[X|X]]; [|right; left; exact X|discriminate]. destruct (H2 s X) as [Y|Y]; auto.
  - intros Hb s X Y. apply (I5 Hb s X), H1, Y.
Qed.
Definition allowed (p : list op) : Prop := by_hand = true \/ forallb never_ends p = true.
Lemma allowed_cons o p : allowed (o :: p) -> allowed p.
Proof. intros [H|H]; [left; exact H|right]. cbn in H. apply andb_prop in H. tauto. Qed.

Lemma exec_kept : allowed on_start -> allowed on_end -> allowed on_log -> forall n p w, allowed p -> inv w -> kept (exec n p w).
Proof.
  intros As Ae Al. induction n as [|n IH]; intros p w Hp Hw; [exact I|]. destruct p as [|o p]; [exact Hw|]. cbn [ReentryModel.exec]. apply kept_bind; [|intros w' H; apply IH; [eapply allowed_cons, Hp|exact H]].
  assert (E : forall w, inv w -> kept (exec n on_end w)) by (intros v Hv; apply IH; assumption).
  assert (L : forall w, inv w -> kept (warn on_log (exec n) w)) by (intros v Hv; apply IH; [exact Al|exact Hv]).
  assert (Sh : forall f, (forall w, inv w -> kept (f w)) -> kept (shared f w)).
  { intros f Hf. unfold shared. destruct (w_excl w); [exact I|]. apply kept_bind; [apply Hf; exact Hw|]. intros w' H. exact H. }
  assert (Ex : forall f w, inv w -> (forall w, inv w -> kept (f w)) -> kept (exclusively f w)).
  { intros f v Hv Hf. unfold exclusively. destruct (_ || _); [exact I|]. apply kept_bind; [apply Hf; exact Hv|]. intros w' H. exact H. }
  assert (Add : forall w c, inv w -> (forall s, c = Some s -> owner w s) -> inv (set_vars (Some c :: w_vars w) w)).
  { intros v c Hv Hc. eapply inv_move; [| | | | |exact Hv]; try reflexivity; try discriminate.
    - intros s [H|[H|[H|H]]]; cbn in H; [left; exact H|right; left; exact H|apply Hc; congruence|right; right; exact H].
    - intros s [H|[H|H]]; left; [left; exact H|right; left; exact H|right; right; right; exact H]. }
  assert (Take : forall w v c, inv w -> nth_error (w_vars w) v = Some (Some c) -> inv_but c (set_vars (set_at v None (w_vars w)) w)).
  { intros v i c Hv Hn. eapply inv_move; [| | | | |exact Hv]; try reflexivity.
    - intros s [H|[H|H]]; cbn in H; [left; exact H|right; left; exact H|right; right; apply (set_at_in s _ _ _ Hn); exact H].
    - intros s [H|[H|H]]; [left; left; exact H|left; right; left; exact H|]. destruct (set_at_in s _ _ _ Hn) as [_ H']. destruct (H' H) as [X|X]; [left; right; right; exact X|right; exact X].
    - intros s ->. right. right. eapply nth_error_In, Hn. }
  assert (Var : forall w v, inv w -> kept (drop_var on_end (exec n) v w)).
  { intros v i Hv. unfold drop_var. destruct (nth_error (w_vars v) i) as [[c|]|] eqn:Ei; [|exact Hv..]. apply drop_kept; [exact E|]. apply Take; assumption. }
  destruct o as [|body| |i|g|i|i|i]; cbn [ReentryModel.step].
  - apply Sh. intros v Hv. apply Add; [exact Hv|]. intros s Hs. left. exact Hs.
  - apply Sh. intros v Hv. apply IH; [|exact Hv]. destruct Hp as [Hp|Hp]; [left; exact Hp|right]. cbn in Hp. apply andb_prop in Hp. tauto.
  - apply kept_bind; [apply Sh; intros v Hv; apply IH; assumption|]. intros v (I1 & I2 & I3 & I4 & I5). unfold kept, inv_but. cbn [set_next set_vars w_ended w_next w_stack w_vars].
    assert (Ow : forall s, owner (set_next (S (w_next v)) (set_vars (Some (Some (w_next v)) :: w_vars v) v)) s <-> owner v s \/ s = w_next v).
    { intros s. unfold owner. cbn. split.
      - intros [H|[H|[H|H]]]; [left; left; exact H|left; right; left; exact H|right; congruence|left; right; right; exact H].
      - intros [[H|[H|H]]|H]; [left; exact H|right; left; exact H|right; right; right; exact H|right; right; left; congruence]. }
    split; [exact I1|]. split; [intros s Hs; specialize (I2 s Hs); lia|]. split; [|split].
    + intros s [Hs|Hs]; [|discriminate]. apply Ow in Hs. destruct Hs as [Hs|Hs]; [specialize (I3 s (or_introl Hs)); lia|lia].
    + intros s Hs. rewrite Ow. destruct (Nat.eq_dec s (w_next v)) as [->|Hne]; [left; right; reflexivity|]. destruct (I4 s) as [X|[X|X]]; [lia|left; left; exact X|right; left; exact X|discriminate].
    + intros Hb s Hs Ho. apply Ow in Ho. destruct Ho as [Ho|Ho]; [exact (I5 Hb s Hs Ho)|]. specialize (I2 s Hs). lia.
  - destruct (nth_error (w_vars w) i) as [[c|]|] eqn:Ei; [|exact Hw..]. unfold exclusively. destruct (_ || _); [exact I|]. apply kept_bind; [|intros w' H; exact H]. cbn [w_stack set_borrow].
    unfold cs_push. cbv zeta. destruct (N.ltb_spec (N.of_nat (length (cs_stack (w_stack w))) + 1) MAX_POS) as [Hlt|Hge].
    + destruct (N.eqb_spec (N.of_nat (length (cs_stack (w_stack w))) + 1) MAX_POS) as [X|_]; [lia|].
      cbn [kept]. eapply inv_move; [| | | | |exact Hw]; try reflexivity; try discriminate.
      * intros s [H|[H|H]]; cbn in H.
        -- right. right. rewrite H in Ei. eapply nth_error_In, Ei.
        -- apply in_app_iff in H. destruct H as [H|[H|[]]]; [right; left; exact H|left; congruence].
        -- right. right. apply (set_at_in s _ _ _ Ei). exact H.
      * intros s [H|[H|H]]; left.
        -- right. left. cbn. apply in_app_iff. right. left. rewrite H. reflexivity.
        -- right. left. cbn. apply in_app_iff. left. exact H.
        -- destruct (set_at_in s _ _ _ Ei) as [_ H']. destruct (H' H) as [X|X]; [right; right; exact X|left; exact X].
    + rewrite N.eqb_refl. apply kept_bind; [apply L; exact Hw|]. intros v Hv. apply Var. exact Hv.
  - destruct (nth_error (w_guards w) g) as [[id|]|]; [|exact Hw..]. cbv zeta. destruct (_ && _); [|exact Hw]. apply Ex; [exact Hw|]. intros v Hv. destruct (cs_pop_id (w_stack v) id) as [st|] eqn:Ep; [|exact I].
    destruct (N.ltb _ id); [apply L, Hv|]. apply drop_kept; [exact E|]. eapply inv_move; [| | | | |exact Hv]; try reflexivity.
    + intros s [H|[H|H]]; cbn in H; [| |right; right; exact H]; (destruct (pop_owners _ _ _ s Ep) as (P & _ & _); destruct P as [X|X]; [|left; exact X|right; left; exact X]); [left; exact H|right; exact H].
    + intros s [H|[H|H]]; [| |left; right; right; exact H]; (destruct (pop_owners _ _ _ s Ep) as (_ & P & _); destruct P as [[X|X]|X]; [|left; left; exact X|left; right; left; exact X|right; exact X]); [left; exact H|right; exact H].
    + intros s Hs. destruct (pop_owners _ _ _ s Ep) as (_ & _ & P). destruct (P Hs) as [X|X]; [left; exact X|right; left; exact X].
  - destruct (nth_error (w_vars w) i) as [[c|]|] eqn:Ei; [|exact Hw..]. apply Add; [exact Hw|]. intros s ->. right. right. eapply nth_error_In, Ei.
  - apply Var, Hw.
  - destruct (nth_error (w_vars w) i) as [[[s|]|]|] eqn:Ei; [|exact Hw..]. apply end_kept; [exact E|apply inv_ended_by_hand; [exact Hw|right; right; eapply nth_error_In, Ei]|].
    left. destruct Hp as [Hp|Hp]; [exact Hp|discriminate Hp].
Qed.
End lifetime.

(** However callbacks nest and guards are dropped, in or out of order: a span is handed to
    the processors at most once, and has been once no context and no variable holds it. *)
Theorem C69_ends_exactly_once : forall on_start on_end on_log n p w, exec on_start on_end on_log n p w_init = Done w ->
  NoDup (w_ended w) /\ forall s, s < w_next w -> ~ owner w s -> In s (w_ended w).
Proof.
  intros on_start on_end on_log n p w E.
  assert (H : kept true (exec on_start on_end on_log n p w_init)).
  { apply exec_kept; try (left; reflexivity). split; [constructor|]. split; [intros s []|]. split; [intros s [[X|[X|X]]|X]; [discriminate X|destruct X|destruct X|discriminate X]|]. split; [intros s X; cbn in X; lia|discriminate]. }
  rewrite E in H. destruct H as (I1 & I2 & I3 & I4 & I5). split; [exact I1|]. intros s Hs Ho. destruct (I4 s Hs) as [X|[X|X]]; [contradiction|exact X|discriminate].
Qed.
Print Assumptions C69_ends_exactly_once.

(** And if nothing ends spans by hand, it has been handed over exactly when nobody holds it
    any more: a span made active lasts as long as its context does. *)
Theorem C69_ends_with_last_owner : forall on_start on_end on_log n p w,
  forallb never_ends on_start = true -> forallb never_ends on_end = true -> forallb never_ends on_log = true -> forallb never_ends p = true ->
  exec on_start on_end on_log n p w_init = Done w ->
  forall s, s < w_next w -> In s (w_ended w) <-> ~ owner w s.
Proof.
  intros on_start on_end on_log n p w H1 H2 H3 H4 E.
  assert (H : kept false (exec on_start on_end on_log n p w_init)).
  { apply exec_kept; try (right; assumption). split; [constructor|]. split; [intros s []|]. split; [intros s [[X|[X|X]]|X]; [discriminate X|destruct X|destruct X|discriminate X]|]. split; [intros s X; cbn in X; lia|intros _ s []]. }
  rewrite E in H. destruct H as (I1 & I2 & I3 & I4 & I5). intros s Hs. split; [apply (I5 eq_refl)|]. intros Ho. destruct (I4 s Hs) as [X|[X|X]]; [contradiction|exact X|discriminate].
Qed.
Print Assumptions C69_ends_with_last_owner.

(** Nested spans with guards dropped out of order, a processor that reads the context when
    spans start and drops a context of its own: all is well. *)
Example C69_nonvacuous :
  let starts := [Current; DropCx 0] in
  let p := in_span [Map [Current; DropCx 0]] ++ mark_active ++ mark_active ++ [Detach 1; Start; EndSpan 0; Detach 0] in
  forallb calm starts = true /\ forallb orderly p = true /\ forallb never_ends (in_span []) = true /\
  match exec starts [] [] 100 p w_init with Done w => w_ended w = [2; 3; 1; 0] /\ w_next w = 4 | _ => False end /\
  (* reading the context in on_end is fine when spans are ended before their guards go *)
  match exec starts [Current] [] 100 [Start; Clone 0; Attach 0; EndSpan 1; Detach 0; DropCx 1] w_init with Done w => w_ended w = [0] | _ => False end.
Proof. vm_compute. repeat split. Qed.
