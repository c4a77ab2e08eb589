(** Theorems for C85: the periodic metric reader for async runtimes.

    The reader is shown to refine the threaded one (PeriodicModel.v): leaving out the
    calls that are refused at once, its history is a history of the threaded reader in
    which no call gives up.  The guarantees of C57 follow and are restated here. *)
From Coq Require Import List Arith Bool Lia.
From Verif Require Import ProviderModel ProviderProps PeriodicModel PeriodicProps AsyncReaderModel.
Import ListNotations.

(** * Specification *)
(** The events of accepted calls and of the worker.  The result of the exporter's own
    shutdown is left out, as the reader ignores it. *)
Definition seen {X} (e : @aevent X) : list (@event X) :=
  match e with
  | Ev (EExporterShutdown _) => [EExporterShutdown true]
  | Ev e => [e]
  | _ => []
  end.
Definition history_of {X} (log : list (@aevent X)) : list (@event X) := flat_map seen log.

Section proofs.
Context {X : Type} (CAP : nat).
Notation astate := (@astate X). Notation a_step := (@a_step X CAP). Notation a_run := (@a_run X CAP).

Definition view (s : astate) : @state X := mk (a_queue s) (a_worker s) (a_calls s) (history_of (a_log s)).
Definition no_give_up (a : @action X) : Prop := match a with AGiveUp _ => False | _ => True end.

Lemma history_snoc (log : list (@aevent X)) e : history_of (log ++ [e]) = history_of log ++ seen e.
Proof. unfold history_of. rewrite flat_map_app. cbn [flat_map]. rewrite app_nil_r. reflexivity. Qed.

(** One step is no step or one step of the threaded reader. *)
Definition abs_action (s : astate) (a : @aaction X) : list (@action X) :=
  match a with
  | BRegister | BCollectCall _ => []
  | BCall k => if a_down s || is_exited (a_worker s) || negb (length (a_queue s) <? CAP) then [] else [ACall k]
  | BReturn c => [AReturn c]
  | BTake => [ATake] | BTick => [ATimeout] | BCollect r => [ACollect (if a_down s then None else r)] | BExport => [AExport]
  | BExported ok => [AExported ok] | BShutExporter ok => [AShutExporter true] | BAnswer => [AAnswer]
  end.
Lemma sim s a s' : a_step s a = Some s' -> run (view s) (abs_action s a) = Some (view s').
Proof.
  destruct s as [g d q w cs log]. unfold view. cbn [a_queue a_worker a_calls a_log a_down]. intros H.
  assert (Hw : forall a0, (if g then worker_step (mk_a g d q w cs log) a0 else None) = Some s' ->
               worker_step (mk_a g d q w cs log) a0 = Some s') by (intros a0; destruct g; [auto|discriminate]).
  destruct a as [|k|r|c| | |r| |ok|ok|]; cbn [abs_action a_down a_worker a_queue run] in *; cbn [AsyncReaderModel.a_step] in H;
  try (apply Hw in H; clear Hw; cbn [worker_step] in H).
  - injection H as <-. reflexivity.
  - clear Hw. destruct d; cbn [orb].
    { injection H as <-. cbn [a_queue a_worker a_calls a_log]. rewrite history_snoc, app_nil_r. reflexivity. }
    destruct (is_exited w) eqn:Ex; cbn [orb].
    { injection H as <-. cbn [a_queue a_worker a_calls a_log]. rewrite history_snoc, app_nil_r. reflexivity. }
    destruct (length q <? CAP); cbn [negb]; injection H as <-; cbn [a_queue a_worker a_calls a_log run]; rewrite history_snoc; cbn [seen].
    + destruct w; try discriminate; reflexivity.
    + rewrite app_nil_r. reflexivity.
  - clear Hw. injection H as <-. cbn [a_queue a_worker a_calls a_log]. rewrite history_snoc, app_nil_r. reflexivity.
  - clear Hw. cbn [step]. destruct (nth_error cs c) as [[k [ok|]|]|] eqn:Ec; try discriminate.
    + injection H as <-. cbn [a_queue a_worker a_calls a_log]. rewrite history_snoc. destruct w; reflexivity.
    + destruct (is_exited w) eqn:Ex; [|discriminate]. destruct w; try discriminate. injection H as <-.
      cbn [a_queue a_worker a_calls a_log]. rewrite history_snoc. reflexivity.
  - destruct w; try discriminate. destruct q as [|[k c] q]; [discriminate|]. injection H as <-. reflexivity.
  - destruct w; try discriminate. injection H as <-. reflexivity.
  - destruct w; try discriminate. cbv zeta in H. destruct (if d then None else r) as [[|m ms]|]; injection H as <-;
    cbn [a_queue a_worker a_calls a_log step]; rewrite history_snoc; reflexivity.
  - destruct w; try discriminate. injection H as <-. cbn [a_queue a_worker a_calls a_log step]. rewrite history_snoc. reflexivity.
  - destruct w; try discriminate. injection H as <-. cbn [a_queue a_worker a_calls a_log step]. rewrite history_snoc. reflexivity.
  - destruct w as [| | | |c ok'| |]; try discriminate. injection H as <-. cbn [a_queue a_worker a_calls a_log step]. rewrite history_snoc, andb_true_r. reflexivity.
  - destruct w as [| | | | |[|] c ok|]; try discriminate; injection H as <-; cbn [a_queue a_worker a_calls a_log step]; rewrite history_snoc; reflexivity.
Qed.
Lemma abs_no_give_up s a : Forall no_give_up (abs_action s a).
Proof. destruct a; cbn [abs_action]; try (destruct (_ || _)); repeat constructor. Qed.

Lemma sim_run : forall acts s s', a_run s acts = Some s' ->
  exists acts', Forall no_give_up acts' /\ run (view s) acts' = Some (view s').
Proof.
  induction acts as [|a acts IH]; intros s s' H; cbn [AsyncReaderModel.a_run] in H.
  - injection H as <-. exists []. split; [constructor|reflexivity].
  - destruct (a_step s a) as [s1|] eqn:E; [|discriminate]. destruct (IH _ _ H) as (acts' & Ha & Hr).
    exists (abs_action s a ++ acts'). split; [apply Forall_app; split; [apply abs_no_give_up|exact Ha]|].
    rewrite run_app, (sim _ _ _ E). exact Hr.
Qed.
Lemma sim_init acts s : a_run a_init acts = Some s -> exists acts', Forall no_give_up acts' /\ run init acts' = Some (view s).
Proof. intros H. exact (sim_run acts a_init s H). Qed.
Lemma sim_reach acts s : a_run a_init acts = Some s -> reach (view s).
Proof. intros H. destruct (sim_init acts s H) as (acts' & _ & Hr). exists acts'. exact Hr. Qed.

(** In a threaded history without giving up, errors are always for a reason. *)
Lemma error_reason : forall acts (s : @state X), Forall no_give_up acts -> run init acts = Some s ->
  forall l l' k c, st_log s = l ++ EReturn k c false :: l' -> served l k c false \/ exists r, In (EExporterShutdown r) l.
Proof.
  induction acts as [|a acts IH] using rev_ind; intros s Ha H.
  - injection H as <-. intros [|? ?]; discriminate.
  - apply Forall_app in Ha. destruct Ha as [Ha Hl]. apply Forall_inv in Hl.
    rewrite run_app in H. destruct (run init acts) as [s0|] eqn:E0; [|discriminate]. cbn [run] in H.
    destruct (step s0 a) as [s1|] eqn:Es; [|discriminate]. injection H as <-.
    pose proof (cinv_inv s0 (ex_intro _ acts E0)) as Hc. specialize (IH s0 Ha eq_refl).
    destruct s0 as [q w cs log]. destruct Hc as (_&_&H3&_&_&_&_&H8). cbn [st_log] in IH.
    set (Q := fun (l : list (@event X)) k c => served l k c false \/ exists r, In (EExporterShutdown r) l).
    change (forall l l' k c, st_log s1 = l ++ EReturn k c false :: l' -> Q l k c).
    change (forall l l' k c, log = l ++ EReturn k c false :: l' -> Q l k c) in IH.
    assert (Hother : forall e, (forall k c ok, e <> EReturn k c ok) -> st_log s1 = log ++ [e] ->
              forall l l' k c, st_log s1 = l ++ EReturn k c false :: l' -> Q l k c).
    { intros e He ->. apply (returns_other log e Q false He IH). }
    destruct a as [k| | |r| |ok|ok| |c|c]; cbn [step] in Es; [| | | | | | | | |destruct Hl].
    + assert (Hnew : forall w0, w0 = w -> w0 <> WExited -> forall l l' k0 c0, log ++ [ECall k (length cs)] = l ++ EReturn k0 c0 false :: l' -> Q l k0 c0).
      { intros _ _ _. apply returns_other; [discriminate|exact IH]. }
      destruct w; try (injection Es as <-; cbn [st_log]; eapply Hnew; [reflexivity|discriminate]).
      injection Es as <-. cbn [st_log]. change [ECall k (length cs); EReturn k (length cs) false] with ([@ECall X k (length cs)] ++ [EReturn k (length cs) false]).
      rewrite app_assoc. apply returns_new; [|apply returns_other; [discriminate|exact IH]].
      intros _. right. destruct (H8 eq_refl) as [r Hr]. exists r. apply in_or_app. left. exact Hr.
    + destruct w; try discriminate. destruct q as [|[? ?] ?]; [discriminate|]. injection Es as <-. exact IH.
    + destruct w; try discriminate. injection Es as <-. exact IH.
    + destruct w; try discriminate. cbv zeta in Es. destruct r as [[|m ms]|]; injection Es as <-; (eapply Hother; [|reflexivity]; discriminate).
    + destruct w; try discriminate. injection Es as <-. eapply Hother; [|reflexivity]; discriminate.
    + destruct w; try discriminate. injection Es as <-. eapply Hother; [|reflexivity]; discriminate.
    + destruct w; try discriminate. injection Es as <-. eapply Hother; [|reflexivity]; discriminate.
    + destruct w as [| | | | |[|] ? ?|]; try discriminate; injection Es as <-; (eapply Hother; [|reflexivity]; discriminate).
    + destruct (nth_error cs c) as [[k [ok|]|]|] eqn:Ec; try (destruct w; discriminate).
      * assert (Hs : st_log s1 = log ++ [EReturn k c ok]) by (destruct w; injection Es as <-; reflexivity).
        rewrite Hs. apply returns_new; [|exact IH]. intros ->. left. exact (H3 c k false Ec).
      * destruct w; try discriminate. injection Es as <-. cbn [st_log]. apply returns_new; [|exact IH].
        intros _. right. apply H8. reflexivity.
Qed.
End proofs.

(** * Theorems *)

(** Over all interleavings, what the worker does is a sequence of whole cycles (collect;
    export what is not empty; for a flush, answer; for a shutdown, shut the exporter
    down and answer), perhaps with an unfinished last one; every accepted call is served
    at most once; nothing follows the cycle of a shutdown. *)
Theorem C85_worker_history : forall X CAP acts (s : @astate X), a_run CAP a_init acts = Some s ->
  exists cycles rest, filter by_worker (history_of (a_log s)) = concat (map snd cycles) ++ rest /\
    Forall (fun p => cycle (fst p) (snd p)) cycles /\
    (exists src tail, cycle src (rest ++ tail) /\ tail <> []) /\
    NoDup (flat_map ids (map fst cycles)) /\
    (forall pre c l post, cycles = pre ++ (Call KShutdown c, l) :: post -> post = [] /\ rest = []).
Proof.
  intros X CAP acts s H. destruct (sim_init CAP acts s H) as (acts' & _ & Hr).
  exact (C57_worker_history X acts' (view s) Hr).
Qed.
Print Assumptions C85_worker_history.

(** An accepted call that returns success had its whole cycle carried out between call
    and return, with success; one that returns an error had a failed cycle, or the
    reader had been shut down. *)
Theorem C85_calls_answered_after_export : forall X CAP acts (s : @astate X) l l' k c ok,
  a_run CAP a_init acts = Some s -> history_of (a_log s) = l ++ EReturn k c ok :: l' ->
  match ok with
  | true => served l k c true
  | false => served l k c false \/ exists r, In (EExporterShutdown r) l
  end.
Proof.
  intros X CAP acts s l l' k c ok H E. destruct (sim_init CAP acts s H) as (acts' & Hn & Hr). destruct ok.
  - exact (C57_calls_answered_after_export X acts' (view s) l l' k c true Hr E).
  - exact (error_reason acts' (view s) Hn Hr l l' k c E).
Qed.
Print Assumptions C85_calls_answered_after_export.

Theorem C85_nothing_after_shutdown : forall X CAP acts (s : @astate X) l l',
  a_run CAP a_init acts = Some s ->
  (forall ok, history_of (a_log s) = l ++ EExporterShutdown ok :: l' ->
     Forall (fun e => match e with ECollect _ _ | EExportBegin _ | EExportEnd _ | EExporterShutdown _ => False | _ => True end) l') /\
  (forall c, history_of (a_log s) = l ++ EReturn KShutdown c true :: l' -> Forall (fun e => by_worker e = false) l').
Proof.
  intros X CAP acts s l l' H. destruct (sim_init CAP acts s H) as (acts' & _ & Hr).
  exact (C57_nothing_after_shutdown X acts' (view s) l l' Hr).
Qed.
Print Assumptions C85_nothing_after_shutdown.

(** ** Refused calls *)
Section refused.
Context {X : Type} (CAP : nat).
Definition is_call (e : @event X) : bool := match e with ECall _ _ => true | _ => false end.
Definition is_answer (e : @event X) : bool := match e with EAnswer _ _ => true | _ => false end.
Definition count (f : @event X -> bool) (l : list (@aevent X)) : nat := length (filter f (history_of l)).
Definition busy (w : @worker X) : nat := match src_of w with Some (Call _ _) => 1 | _ => 0 end.

(** Why a call may be refused after the log [l]. *)
Definition justified (l : list (@aevent X)) (why : refusal) : Prop :=
  match why with
  | AlreadyDown => exists c ok, In (Ev (EReturn KShutdown c ok)) l
  | WorkerGone => exists r, In (Ev (EExporterShutdown r)) l
  | ChannelFull => count is_answer l + CAP <= count is_call l
  end.
Record rinv (s : @astate X) : Prop := mk_rinv {
  r_down : a_down s = true -> a_worker s = WExited /\ exists c ok, In (Ev (EReturn KShutdown c ok)) (a_log s);
  r_exit : a_worker s = WExited -> exists r, In (Ev (EExporterShutdown r)) (a_log s);
  r_shut : match a_worker s with WAnswer KShutdown _ _ => exists r, In (Ev (EExporterShutdown r)) (a_log s) | _ => True end;
  r_ans : forall c ok, nth_error (a_calls s) c = Some (Waiting KShutdown (Some ok)) -> a_worker s = WExited;
  r_count : a_worker s <> WExited -> count is_call (a_log s) = count is_answer (a_log s) + length (a_queue s) + busy (a_worker s);
  r_ref : forall l l' k why, a_log s = l ++ Refused k why :: l' -> justified l why;
  r_gone : forall c ok, In (Ev (EReturn KShutdown c ok)) (a_log s) -> a_worker s = WExited;
  r_ret : forall l l' c ok, a_log s = l ++ Ev (EReturn KShutdown c ok) :: l' -> forall k c', ~ In (Ev (ECall k c')) l' }.

Lemma count_snoc f (l : list (@aevent X)) e : count f (l ++ [e]) = count f l + length (filter f (seen e)).
Proof. unfold count. rewrite history_snoc, filter_app, app_length. reflexivity. Qed.
Lemma ref_other (log : list (@aevent X)) e :
  (forall k why, e <> Refused k why) ->
  (forall l l' k why, log = l ++ Refused k why :: l' -> justified l why) ->
  forall l l' k why, log ++ [e] = l ++ Refused k why :: l' -> justified l why.
Proof.
  intros He H l l' k why E. apply last_split in E. destruct E as [(_ & E & _)|(l2 & _ & E)]; [destruct (He _ _ E)|eauto].
Qed.
Lemma ref_new (log : list (@aevent X)) k0 why0 : justified log why0 ->
  (forall l l' k why, log = l ++ Refused k why :: l' -> justified l why) ->
  forall l l' k why, log ++ [Refused k0 why0] = l ++ Refused k why :: l' -> justified l why.
Proof.
  intros He H l l' k why E. apply last_split in E. destruct E as [(_ & E & <-)|(l2 & _ & E)]; [injection E as -> ->; exact He|eauto].
Qed.
(** Events other than calls and returns keep [r_ret]. *)
Lemma ret_other (log : list (@aevent X)) e :
  (forall k c, e <> Ev (ECall k c)) ->
  (forall l l' c ok, log = l ++ Ev (EReturn KShutdown c ok) :: l' -> forall k c', ~ In (Ev (ECall k c')) l') ->
  forall l l' c ok, log ++ [e] = l ++ Ev (EReturn KShutdown c ok) :: l' -> forall k c', ~ In (Ev (ECall k c')) l'.
Proof.
  intros He H l l' c ok E k c' Hin. apply last_split in E. destruct E as [(-> & _)|(l2 & -> & E)]; [destruct Hin|].
  apply in_app_or in Hin. destruct Hin as [Hin|[Hin|[]]]; [exact (H _ _ _ _ E _ _ Hin)|exact (He _ _ Hin)].
Qed.
Lemma in_other (log : list (@aevent X)) e x : In x (log ++ [e]) -> e <> x -> In x log.
Proof. intros H Hn. apply in_app_or in H. destruct H as [H|[H|[]]]; [exact H|congruence]. Qed.
Lemma ex_more {A} (P : A -> @aevent X) log l2 : (exists a, In (P a) log) -> exists a, In (P a) (log ++ l2).
Proof. intros [a H]. exists a. apply in_or_app. auto. Qed.
Lemma ex_more2 {A B} (P : A -> B -> @aevent X) log l2 : (exists a b, In (P a b) log) -> exists a b, In (P a b) (log ++ l2).
Proof. intros (a & b & H). exists a, b. apply in_or_app. auto. Qed.

(** A step of the worker that is not the exporter's shutdown nor an answer. *)
Lemma rinv_quiet g d q w cs log q' w' e' (evs : list (@aevent X)) :
  rinv (mk_a g d q w cs log) -> d = false -> w <> WExited -> w' <> WExited -> (match w' with WAnswer KShutdown _ _ => False | _ => True end) ->
  length q' + busy w' = length q + busy w -> (evs = [] \/ evs = [Ev e']) -> is_call e' = false -> is_answer e' = false -> (forall k c ok, e' <> EReturn k c ok) ->
  rinv (mk_a g d q' w' cs (log ++ evs)).
Proof.
  intros [A B C D E F G H] Hd Hw Hw' Hn Hb Hev Hc Ha Hr. cbn [a_down a_worker a_log a_calls a_queue] in *.
  assert (Hcnt : forall f, f e' = false -> f (EExporterShutdown true) = false -> count f (log ++ evs) = count f log).
  { intros f Hf Hf'. destruct Hev as [-> | ->]; [rewrite app_nil_r; reflexivity|]. rewrite count_snoc.
    destruct e'; cbn [seen filter]; rewrite ?Hf, ?Hf'; cbn; lia. }
  split; cbn [a_down a_worker a_log a_calls a_queue].
  - congruence.
  - congruence.
  - destruct w' as [| | | | |[] ? ?|]; exact I || destruct Hn.
  - intros c ok Hx. destruct (Hw (D c ok Hx)).
  - intros _. rewrite (Hcnt is_call Hc eq_refl), (Hcnt is_answer Ha eq_refl), (E Hw). lia.
  - destruct Hev as [-> | ->]; [rewrite app_nil_r; exact F|]. apply ref_other; [discriminate|exact F].
  - intros c ok Hin. destruct Hev as [-> | ->]; [rewrite app_nil_r in Hin|apply in_other in Hin; [|intros X1; injection X1; apply Hr]]; destruct (Hw (G c ok Hin)).
  - destruct Hev as [-> | ->]; [rewrite app_nil_r; exact H|]. apply ret_other; [|exact H]. intros k c X1. injection X1 as ->. discriminate Hc.
Qed.

Lemma not_exited_up (s : @astate X) : rinv s -> a_worker s <> WExited -> a_down s = false.
Proof. intros I H. destruct (a_down s) eqn:E; [|reflexivity]. destruct (H (proj1 (r_down _ I E))). Qed.

Lemma busy_after src ok : busy (a_after_export src ok : @worker X) = match src with Timer => 0 | Call _ _ => 1 end.
Proof. destruct src as [|[|] c]; reflexivity. Qed.

Lemma rinv_step s a s' : reach (view s) -> rinv s -> a_step CAP s a = Some s' -> rinv s'.
Proof.
  intros Hreach I0 H. pose proof (cinv_inv _ Hreach) as Hcinv. pose proof (not_exited_up _ I0) as Hup.
  destruct s as [g d q w cs log]. cbn [a_worker a_down] in Hup. unfold view in Hcinv. cbn [a_queue a_worker a_calls a_log] in Hcinv.
  destruct Hcinv as (_ & _ & _ & _ & H5 & _).
  assert (Hw : forall a0, (if g then worker_step (mk_a g d q w cs log) a0 else None) = Some s' ->
               worker_step (mk_a g d q w cs log) a0 = Some s') by (intros a0; destruct g; [auto|discriminate]).
  destruct a as [|k|r|c| | |r| |ok|ok|]; cbn [a_step] in H; try (apply Hw in H; clear Hw; cbn [worker_step] in H).
  - injection H as <-. destruct I0. split; assumption.
  - clear Hw. destruct I0 as [A B C D E F G J]. cbn [a_down a_worker a_log a_calls a_queue] in *.
    assert (Href : forall why, justified log why -> rinv (mk_a g d q w cs (log ++ [Refused k why]))).
    { intros why Hj. split; cbn [a_down a_worker a_log a_calls a_queue].
      - intros Hd. destruct (A Hd). split; [assumption|apply ex_more2; assumption].
      - intros Hx. apply ex_more. auto.
      - destruct w as [| | | | |[] ? ?|]; try exact I. apply ex_more. exact C.
      - exact D.
      - intros Hx. rewrite !count_snoc. cbn [seen filter length]. rewrite (E Hx). lia.
      - apply ref_new; assumption.
      - intros c ok Hin. apply in_other in Hin; [|discriminate]. eauto.
      - apply ret_other; [discriminate|exact J]. }
    destruct d; [injection H as <-; apply Href; exact (proj2 (A eq_refl))|].
    destruct (is_exited w) eqn:Ex; [injection H as <-; apply Href; apply B; destruct w; try discriminate; reflexivity|].
    assert (Hx : w <> WExited) by (intros ->; discriminate).
    destruct (Nat.ltb_spec (length q) CAP) as [Hl|Hl]; injection H as <-; [|apply Href; cbn [justified]; rewrite (E Hx); lia].
    split; cbn [a_down a_worker a_log a_calls a_queue].
    + discriminate.
    + congruence.
    + destruct w as [| | | | |[] ? ?|]; try exact I. apply ex_more. exact C.
    + intros c ok Hc. apply (D c ok). destruct (Nat.lt_trichotomy c (length cs)) as [Hc'|[->|Hc']].
      * rewrite nth_error_app1 in Hc by exact Hc'. exact Hc.
      * rewrite nth_error_app2, Nat.sub_diag in Hc by lia. discriminate.
      * rewrite (proj2 (nth_error_None (cs ++ [Waiting k None]) c)) in Hc by (rewrite app_length; cbn; lia). discriminate.
    + intros _. rewrite !count_snoc, app_length. cbn [seen filter is_call is_answer length]. rewrite (E Hx). lia.
    + apply ref_other; [discriminate|exact F].
    + intros c ok Hin. apply in_other in Hin; [|discriminate]. eauto.
    + intros l l' c ok El. exfalso. apply Hx. apply (G c ok).
      apply in_other with (e := Ev (ECall k (length cs))); [rewrite El; apply in_elt|discriminate].
  - clear Hw. injection H as <-. destruct I0 as [A B C D E F G J]. cbn [a_down a_worker a_log a_calls a_queue] in *.
    split; cbn [a_down a_worker a_log a_calls a_queue].
    + intros Hd. destruct (A Hd). split; [assumption|apply ex_more2; assumption].
    + intros Hx. apply ex_more. auto.
    + destruct w as [| | | | |[] ? ?|]; try exact I. apply ex_more. exact C.
    + exact D.
    + intros Hx. rewrite !count_snoc. cbn [seen filter length]. rewrite (E Hx). lia.
    + apply ref_other; [discriminate|exact F].
    + intros c ok Hin. apply in_other in Hin; [|discriminate]. eauto.
    + apply ret_other; [discriminate|exact J].
  - clear Hw. destruct I0 as [A B C D E F G J]. cbn [a_down a_worker a_log a_calls a_queue] in *.
    assert (Hret : forall k ok d', (k = KShutdown -> w = WExited) -> (d' = true -> d = true \/ k = KShutdown) ->
              rinv (mk_a g d' q w (set_nth c Over cs) (log ++ [Ev (EReturn k c ok)]))).
    { intros k ok d' Hk Hd'. split; cbn [a_down a_worker a_log a_calls a_queue].
      - intros X1. destruct (Hd' X1) as [Hd|Hk'].
        + destruct (A Hd). split; [assumption|apply ex_more2; assumption].
        + split; [auto|]. subst k. exists c, ok. apply in_or_app. right. left. reflexivity.
      - intros Hx. apply ex_more. auto.
      - destruct w as [| | | | |[] ? ?|]; try exact I. apply ex_more. exact C.
      - intros c' ok' Hc'. rewrite nth_set_nth in Hc'. destruct (Nat.eqb c c'); [destruct (nth_error cs c'); discriminate|eauto].
      - intros Hx. rewrite !count_snoc. cbn [seen filter is_call is_answer length]. rewrite (E Hx). lia.
      - apply ref_other; [discriminate|exact F].
      - intros c' ok' Hin. apply in_app_or in Hin. destruct Hin as [Hin|[Hin|[]]]; [eauto|]. injection Hin as -> _ _. auto.
      - apply ret_other; [discriminate|exact J]. }
    destruct (nth_error cs c) as [[k [ok|]|]|] eqn:Ec; try discriminate.
    + injection H as <-. apply Hret; [intros ->; exact (D c ok Ec)|destruct k; auto].
    + destruct (is_exited w) eqn:Ex; [|discriminate]. injection H as <-. apply Hret; [destruct w; try discriminate; auto|auto].
  - destruct w; try discriminate. destruct q as [|[k c] q]; [discriminate|]. injection H as <-.
    rewrite <- (app_nil_r log). eapply (rinv_quiet g d _ _ cs log _ _ (EExportBegin [])); try exact I0; try discriminate; try reflexivity; auto.
    + apply Hup. discriminate.
    + cbn. lia.
  - destruct w; try discriminate. injection H as <-.
    rewrite <- (app_nil_r log). eapply (rinv_quiet g d _ _ cs log _ _ (EExportBegin [])); try exact I0; try discriminate; try reflexivity; auto.
    apply Hup. discriminate.
  - destruct w as [|src| | | | |]; try discriminate. cbv zeta in H.
    assert (Hq : forall w' r0, w' <> WExited -> match w' with WAnswer KShutdown _ _ => False | _ => True end ->
      busy w' = match src with Timer => 0 | Call _ _ => 1 end -> rinv (mk_a g d q w' cs (log ++ [Ev (ECollect src r0)]))).
    { intros w' r0 H1 H2 H3. eapply (rinv_quiet g d _ _ cs log _ _ (ECollect src r0)); try exact I0; try discriminate; try reflexivity; auto.
      apply Hup. discriminate. }
    destruct (if d then None else r) as [[|m ms]|]; injection H as <-; apply Hq; try discriminate; try apply busy_after; try exact I;
    try (destruct src as [|[|] ?]; cbn; try discriminate; exact I). destruct src; reflexivity.
  - destruct w as [| |src ms| | | |]; try discriminate. injection H as <-.
    eapply (rinv_quiet g d _ _ cs log _ _ (EExportBegin ms)); try exact I0; try discriminate; try reflexivity; auto. apply Hup. discriminate.
  - destruct w as [| | |src| | |]; try discriminate. injection H as <-.
    eapply (rinv_quiet g d _ _ cs log _ _ (EExportEnd ok)); try exact I0; try discriminate; try reflexivity; auto.
    + apply Hup. discriminate.
    + destruct src as [|[|] ?]; discriminate.
    + destruct src as [|[|] ?]; exact I.
    + rewrite busy_after. destruct src as [|[|] ?]; reflexivity.
  - destruct w as [| | | |c ok'| |]; try discriminate. injection H as <-.
    assert (Hd : d = false) by (apply Hup; discriminate).
    destruct I0 as [A B C D E F G J]. cbn [a_down a_worker a_log a_calls a_queue] in *.
    assert (Hx : @WShut X c ok' <> WExited) by discriminate.
    split; cbn [a_down a_worker a_log a_calls a_queue].
    + congruence.
    + discriminate.
    + exists ok. apply in_or_app. right. left. reflexivity.
    + intros c' o Hc'. destruct (Hx (D _ _ Hc')).
    + intros _. rewrite !count_snoc. cbn [seen filter is_call is_answer length]. rewrite (E Hx). cbn. lia.
    + apply ref_other; [discriminate|exact F].
    + intros c' o Hin. apply in_other in Hin; [|discriminate]. destruct (Hx (G _ _ Hin)).
    + apply ret_other; [discriminate|exact J].
  - destruct w as [| | | | |k c ok|]; try discriminate.
    assert (Hd : d = false) by (apply Hup; discriminate).
    destruct I0 as [A B C D E F G J]. cbn [a_down a_worker a_log a_calls a_queue] in *.
    assert (Hx : @WAnswer X k c ok <> WExited) by discriminate. specialize (E Hx).
    assert (Hs : s' = match k with KFlush => mk_a g d q WIdle (a_set_answer c ok cs) (log ++ [Ev (EAnswer c ok)])
                     | KShutdown => mk_a g d [] WExited (a_set_answer c ok cs) (log ++ [Ev (EAnswer c ok)]) end)
      by (destruct k; congruence). subst s'. clear H.
    assert (Hans : forall c' o, nth_error (a_set_answer c ok cs) c' = Some (Waiting KShutdown (Some o)) -> k = KShutdown).
    { intros c' o Hc'. unfold a_set_answer in Hc'. destruct (nth_error cs c) as [[k1 o1|]|] eqn:Ec.
      - rewrite nth_set_nth in Hc'. destruct (Nat.eqb_spec c c') as [<-|Hne].
        + rewrite Ec in Hc'. injection Hc' as -> _. destruct (H5 k c KShutdown o1 (or_intror eq_refl) Ec) as [Hk _]. congruence.
        + destruct (Hx (D _ _ Hc')).
      - destruct (Hx (D _ _ Hc')).
      - destruct (Hx (D _ _ Hc')). }
    assert (HB : k = KShutdown -> exists r, In (Ev (EExporterShutdown r)) (log ++ [Ev (EAnswer c ok)])).
    { intros ->. apply ex_more. exact C. }
    assert (HF : forall l l' k0 why, log ++ [Ev (EAnswer c ok)] = l ++ Refused k0 why :: l' -> justified l why)
      by (apply ref_other; [discriminate|exact F]).
    assert (HG : forall c' o, ~ In (Ev (EReturn KShutdown c' o)) (log ++ [Ev (EAnswer c ok)])).
    { intros c' o Hin. apply in_other in Hin; [|discriminate]. exact (Hx (G _ _ Hin)). }
    assert (HJ := ret_other log (Ev (EAnswer c ok)) ltac:(discriminate) J).
    destruct k; (split; cbn [a_down a_worker a_log a_calls a_queue]; [congruence| |exact I| | |exact HF| |exact HJ]).
    + discriminate.
    + intros c' o Hc'. discriminate (Hans _ _ Hc').
    + intros _. rewrite !count_snoc. cbn [seen filter is_call is_answer length]. rewrite E. cbn. lia.
    + intros c' o Hin. destruct (HG _ _ Hin).
    + auto.
    + reflexivity.
    + congruence.
    + reflexivity.
Qed.

Lemma rinv_reach acts : forall s : @astate X, a_run CAP a_init acts = Some s -> rinv s.
Proof.
  induction acts as [|a acts IH] using rev_ind; intros s H.
  - injection H as <-. split; cbn; try discriminate; auto.
    + intros [|c] ok; discriminate.
    + intros [|? ?]; discriminate.
    + intros c ok [].
    + intros [|? ?]; discriminate.
  - assert (Happ : forall l l' (s0 : @astate X), a_run CAP s0 (l ++ l') = match a_run CAP s0 l with Some s1 => a_run CAP s1 l' | None => None end).
    { clear. induction l as [|x l IHl]; intros l' s0; cbn [a_run app]; [reflexivity|]. destruct (a_step CAP s0 x); [apply IHl|reflexivity]. }
    rewrite Happ in H. destruct (a_run CAP a_init acts) as [s0|] eqn:E; [|discriminate]. cbn [a_run] in H.
    destruct (a_step CAP s0 a) as [s1|] eqn:Es; [|discriminate]. injection H as <-.
    eapply rinv_step; [eapply sim_reach; exact E|apply IH; reflexivity|exact Es].
Qed.
End refused.

(** A call that fails at once does so for a reason: a shutdown had returned, the
    exporter had been shut down, or more calls than the channel holds were unanswered. *)
Theorem C85_refusals : forall X CAP acts (s : @astate X) l l' k why,
  a_run CAP a_init acts = Some s -> a_log s = l ++ Refused k why :: l' ->
  match why with
  | AlreadyDown => exists c ok, In (Ev (EReturn KShutdown c ok)) l
  | WorkerGone => exists r, In (Ev (EExporterShutdown r)) l
  | ChannelFull => CAP <= count is_call l - count is_answer l
  end.
Proof.
  intros X CAP acts s l l' k why H E. pose proof (r_ref CAP _ (rinv_reach CAP acts s H) l l' k why E) as J.
  destruct why; try exact J. cbn [justified] in J. lia.
Qed.
Print Assumptions C85_refusals.

(** After any shutdown has returned, no call is accepted any more. *)
Theorem C85_nothing_accepted_after_shutdown : forall X CAP acts (s : @astate X) l l' c ok,
  a_run CAP a_init acts = Some s -> a_log s = l ++ Ev (EReturn KShutdown c ok) :: l' ->
  forall k c', ~ In (Ev (ECall k c')) l'.
Proof. intros X CAP acts s l l' c ok H E. exact (r_ret CAP _ (rinv_reach CAP acts s H) l l' c ok E). Qed.
Print Assumptions C85_nothing_accepted_after_shutdown.

Section more.
Context {X : Type} (CAP : nat).
Lemma a_run_app : forall l l' (s0 : @astate X), a_run CAP s0 (l ++ l') = match a_run CAP s0 l with Some s1 => a_run CAP s1 l' | None => None end.
Proof. induction l as [|x l IHl]; intros l' s0; cbn [a_run app]; [reflexivity|]. destruct (a_step CAP s0 x); [apply IHl|reflexivity]. Qed.

Lemma down_stays s a (s' : @astate X) : a_step CAP s a = Some s' -> a_down s = true -> a_down s' = true.
Proof.
  destruct s as [g d q w cs log]. cbn [a_down]. intros H ->.
  destruct a as [|k|r|c| | |r| |ok|ok|]; cbn [a_step] in H; try (destruct g; [|discriminate]; cbn [worker_step] in H);
  repeat (match type of H with context [match ?x with _ => _ end] => destruct x end; try discriminate);
  injection H as <-; reflexivity.
Qed.
Lemma registered_stays s a (s' : @astate X) : a_step CAP s a = Some s' -> a_registered s = true -> a_registered s' = true.
Proof.
  destruct s as [g d q w cs log]. cbn [a_registered]. intros H ->.
  destruct a as [|k|r|c| | |r| |ok|ok|]; cbn [a_step worker_step] in H;
  repeat (match type of H with context [match ?x with _ => _ end] => destruct x end; try discriminate);
  injection H as <-; reflexivity.
Qed.
End more.

(** After a shutdown that was answered has returned, [collect] fails too. *)
Theorem C85_collect_after_shutdown : forall X CAP acts acts' (s s' : @astate X) c k o r,
  a_run CAP a_init acts = Some s -> nth_error (a_calls s) c = Some (Waiting k (Some o)) -> k = KShutdown ->
  a_run CAP s (BReturn c :: acts' ++ [BCollectCall r]) = Some s' ->
  exists log, a_log s' = log ++ [Collected CErrDown].
Proof.
  intros X CAP acts acts' s s' c k o r _ Hc -> H. cbn [a_run] in H.
  destruct (a_step CAP s (BReturn c)) as [s1|] eqn:E1; [|discriminate].
  assert (Hd : a_down s1 = true). { destruct s as [g d q w cs log]. cbn [a_calls] in Hc. cbn [a_step] in E1. rewrite Hc in E1. injection E1 as <-. reflexivity. }
  clear E1 Hc. rewrite a_run_app in H. destruct (a_run CAP s1 acts') as [s2|] eqn:E2; [|discriminate].
  assert (Hd2 : a_down s2 = true).
  { clear H. revert s1 E2 Hd. induction acts' as [|a l IH]; intros s1 E2 Hd; cbn [a_run] in E2; [congruence|].
    destruct (a_step CAP s1 a) as [s3|] eqn:E3; [|discriminate]. eapply IH; [exact E2|eapply down_stays; eassumption]. }
  cbn [a_run a_step] in H. destruct s2 as [g d q w cs log]. cbn [a_down] in Hd2. subst d. injection H as <-. exists log. reflexivity.
Qed.
Print Assumptions C85_collect_after_shutdown.

(** ** Does every call return? *)

(** Steps made on behalf of accepted calls. *)
Definition a_serving {X} (a : @aaction X) : Prop := match a with BRegister | BCall _ | BCollectCall _ | BTick => False | _ => True end.

(** Once a pipeline is registered, all accepted calls return: the work asked for so far
    takes at most [todo] steps, and when no such step is left no call waits. *)
Theorem C85_no_call_stuck : forall X CAP acts0 (s : @astate X), a_run CAP a_init acts0 = Some s -> a_registered s = true ->
  forall acts s', Forall a_serving acts -> a_run CAP s acts = Some s' ->
  length acts <= todo (view s) /\
  ((forall a, a_serving a -> a_step CAP s' a = None) -> Forall (fun c => c = Over) (a_calls s')).
Proof.
  intros X CAP acts0 s H0 Hg acts s' Ha Hr. split.
  - clear H0 Hg. revert s Hr Ha. induction acts as [|a acts IH]; intros s Hr Ha; [cbn; lia|].
    cbn [a_run] in Hr. destruct (a_step CAP s a) as [s1|] eqn:Es; [|discriminate]. inversion Ha as [|x y Hx Hy]; subst.
    specialize (IH s1 Hr Hy). cbn [length].
    pose proof (sim CAP _ _ _ Es) as Hs. destruct a as [|k|r|c| | |r| |ok|ok|]; try destruct Hx; cbn [abs_action run] in Hs;
    (destruct (step (view s) _) as [v|] eqn:Ev in Hs; [|discriminate]; injection Hs as ->;
     assert (Hd : todo (view s1) < todo (view s)) by (eapply serving_decreases; [|exact Ev]; exact I); lia).
  - intros Hstuck. apply Forall_forall. intros x Hx. apply In_nth_error in Hx. destruct Hx as [c Hc].
    destruct x as [k o|]; [|reflexivity]. exfalso.
    assert (Hrun : a_run CAP a_init (acts0 ++ acts) = Some s') by (rewrite a_run_app, H0; exact Hr).
    assert (Hreg : a_registered s' = true).
    { clear Hstuck Hrun H0 Hc. revert s Hg Hr. clear Ha. induction acts as [|a acts IH]; intros s Hg Hr; cbn [a_run] in Hr; [congruence|].
      destruct (a_step CAP s a) as [s1|] eqn:Es; [|discriminate]. eapply IH; [eapply registered_stays; eassumption|exact Hr]. }
    pose proof (cinv_inv _ (sim_reach CAP _ _ Hrun)) as Hci.
    destruct s' as [g d q w cs log]. cbn [a_registered a_calls] in *. subst g. unfold view in Hci. cbn [a_queue a_worker a_calls a_log] in Hci.
    destruct Hci as (_&_&_&H4&_).
    destruct o as [ok|].
    + specialize (Hstuck (BReturn c) I). cbn [a_step] in Hstuck. rewrite Hc in Hstuck. discriminate.
    + destruct w as [|src|src ms|src|c0 ok|k0 c0 ok|].
      * destruct (H4 c k Hc) as [Hin|[?|?]]; try discriminate. destruct q as [|[k1 c1] q]; [destruct Hin|].
        specialize (Hstuck BTake I). discriminate.
      * specialize (Hstuck (BCollect None) I). cbn [a_step worker_step] in Hstuck. destruct d; discriminate.
      * specialize (Hstuck BExport I). discriminate.
      * specialize (Hstuck (BExported true) I). discriminate.
      * specialize (Hstuck (BShutExporter true) I). discriminate.
      * specialize (Hstuck BAnswer I). destruct k0; discriminate.
      * specialize (Hstuck (BReturn c) I). cbn [a_step] in Hstuck. rewrite Hc in Hstuck. discriminate.
Qed.
Print Assumptions C85_no_call_stuck.

(** Refuted without registration: a flush or shutdown of a reader that belongs to no
    meter provider is accepted but can never return, however long one waits. *)
Theorem C132_unregistered_call_hangs_refuted : forall X CAP k acts (s : @astate X), 0 < CAP ->
  a_run CAP a_init (BCall k :: acts) = Some s -> ~ In BRegister acts ->
  nth_error (a_calls s) 0 = Some (Waiting k None).
Proof.
  intros X CAP k acts s HC H Hn. cbn [a_run a_step a_init is_exited] in H.
  destruct (Nat.ltb_spec (length (@nil (kind * nat))) CAP) as [_|Hl]; [|cbn in Hl; lia].
  set (s0 := mk_a _ _ _ _ _ _) in H.
  assert (H0 : a_registered s0 = false /\ nth_error (a_calls s0) 0 = Some (Waiting k None) /\ a_worker s0 = WIdle /\
     (forall c k' o, nth_error (a_calls s0) c = Some (Waiting k' o) -> o = None))
    by (split; [reflexivity|split; [reflexivity|split; [reflexivity|]]]; intros [|[|c]] k' o X1; cbn in X1; congruence).
  clearbody s0. revert s0 H H0 Hn. induction acts as [|a acts IH]; intros s0 H (Hg & Hc & Hw & Ho) Hn; cbn [a_run] in H.
  - injection H as <-. exact Hc.
  - destruct (a_step CAP s0 a) as [s1|] eqn:Es; [|discriminate]. apply (IH s1 H); [|intros Hin; apply Hn; right; exact Hin].
    destruct s0 as [g d q w cs log]. cbn [a_registered a_calls a_worker] in *. subst g w.
    destruct a as [|k'|r|c| | |r| |ok|ok|]; cbn [a_step] in Es; try discriminate.
    + destruct Hn. left. reflexivity.
    + destruct d; [injection Es as <-; auto|]. cbn [is_exited] in Es.
      destruct (length q <? CAP); injection Es as <-; cbn [a_registered a_calls a_worker]; [|auto].
      split; [reflexivity|split; [|split; [reflexivity|]]].
      * destruct cs; [discriminate|exact Hc].
      * intros c k0 o Hc0. destruct (Nat.lt_ge_cases c (length cs)) as [Hl|Hl].
        -- rewrite nth_error_app1 in Hc0 by exact Hl. eauto.
        -- rewrite nth_error_app2 in Hc0 by exact Hl. destruct (c - length cs) as [|[|?]]; cbn in Hc0; congruence.
    + injection Es as <-. auto.
    + destruct (nth_error cs c) as [[k0 [o|]|]|] eqn:Ec; try discriminate. discriminate (Ho _ _ _ Ec).
Qed.
Print Assumptions C132_unregistered_call_hangs_refuted.

(** A flush that exports, a tick, a shutdown whose final export fails while a second
    shutdown is queued behind it: that one gets a plain error, a third one is told
    that the reader is shut down already. *)
Example C85_nonvacuous : match a_run 257 a_init
  ([BRegister; BCall KFlush; BTake; BCollect (Some [7]); BExport; BExported true; BAnswer; BReturn 0;
    BTick; BCollect (Some []); BCall KShutdown; BCall KShutdown; BTake; BCollect (Some [8]); BExport; BExported false;
    BShutExporter false; BAnswer; BReturn 2; BReturn 1; BCall KShutdown; BCollectCall (Some [9])]) with
  | Some s => a_log s =
      [Ev (ECall KFlush 0); Ev (ECollect (Call KFlush 0) (Some [7])); Ev (EExportBegin [7]); Ev (EExportEnd true); Ev (EAnswer 0 true); Ev (EReturn KFlush 0 true);
       Ev (ECollect Timer (Some [])); Ev (ECall KShutdown 1); Ev (ECall KShutdown 2); Ev (ECollect (Call KShutdown 1) (Some [8])); Ev (EExportBegin [8]); Ev (EExportEnd false);
       Ev (EExporterShutdown false); Ev (EAnswer 1 false); Ev (EReturn KShutdown 2 false); Ev (EReturn KShutdown 1 false); Refused KShutdown AlreadyDown; Collected CErrDown]
  | None => False end.
Proof. reflexivity. Qed.
