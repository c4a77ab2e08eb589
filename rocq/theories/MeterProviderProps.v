(** C77. *)
From Coq Require Import List Bool Arith Lia.
From Verif Require Import ProviderModel ProviderProps MeterProviderModel.
Import ListNotations.

(** C77: however many threads shut the provider down or drop its handles, every reader
    is shut down at most once, in order; when a shutdown has returned or the provider is
    gone, each exactly once; a second shutdown reports that; the answer is Ok exactly
    when every reader's was. *)
Theorem C77_readers_shut_down_once : forall readers ok acts s, mp_run readers ok acts = Some s ->
  (exists k, k <= readers /\ shut_log (p_log s) = seq 0 k) /\
  (forall i r, nth_error (p_calls s) i = Some (Finished r) -> (r = ROk \/ r = RFailed) ->
     shut_log (p_log s) = seq 0 readers /\ (r = ROk <-> forall k, k < readers -> ok k = true)) /\
  (p_handles s = 0 -> forallb is_finished (p_calls s) = true -> shut_log (p_log s) = seq 0 readers) /\
  (p_flag s = true -> forall s' acts' s'', pstep readers ok true s CallShutdown = Some s' -> prun readers ok true s' acts' = Some s'' ->
     nth_error (p_calls s'') (length (p_calls s)) = Some (Finished RAlready)).
Proof.
  intros readers ok acts s H. unfold mp_run in H. split; [eapply C30_at_most_once_in_order; exact H|]. split; [|split].
  - intros i r Hi Hr. split.
    + apply (C30_shutdown_returns_after_all readers ok true acts s i H). destruct Hr as [-> | ->]; auto.
    + rewrite <- C30_answer.
      assert (E : r = answer readers ok); [|subst r; tauto].
      clear - H Hi Hr. assert (Hinv : forall s acts s', prun readers ok true s acts = Some s' ->
        (forall i r, nth_error (p_calls s) i = Some (Finished r) -> (r = ROk \/ r = RFailed) -> r = answer readers ok) ->
        (forall i r, nth_error (p_calls s') i = Some (Finished r) -> (r = ROk \/ r = RFailed) -> r = answer readers ok)).
      { clear. intros s acts. revert s. induction acts as [|a acts IH]; intros s s' H H0; [injection H as <-; exact H0|].
        cbn [prun] in H. destruct (pstep readers ok true s a) as [s1|] eqn:Es; [|discriminate]. eapply IH; [exact H|]. clear IH H.
        intros i r Hi Hr.
        assert (Hs : forall x, p_calls s1 = p_calls s ++ [x] -> (forall r', x = Finished r' -> r' <> ROk /\ r' <> RFailed) -> r = answer readers ok).
        { intros x E Hx. rewrite E in Hi. apply nth_snoc in Hi. destruct Hi as [Hi|Hi]; [eauto|].
          destruct Hi as [_ Hi]. symmetry in Hi. destruct (Hx _ Hi) as [? ?]. destruct Hr; contradiction. }
        destruct a as [| |j| |]; cbn [pstep andb] in Es.
        - destruct (p_handles s =? 0); [discriminate|]. destruct (p_flag s); injection Es as <-;
          (eapply Hs; [reflexivity|intros r' Er; try discriminate; injection Er as <-; split; discriminate]).
        - destruct (p_handles s =? 0); [discriminate|]. destruct (p_flag s); injection Es as <-;
          (eapply Hs; [reflexivity|intros r' Er; try discriminate; injection Er as <-; split; discriminate]).
        - assert (Hs' : forall x, p_calls s1 = set_nth j x (p_calls s) -> (forall r', x = Finished r' -> r' = answer readers ok \/ (r' <> ROk /\ r' <> RFailed)) -> r = answer readers ok).
          { intros x E Hx. rewrite E, nth_set_nth in Hi. destruct (j =? i); [|eauto]. destruct (nth_error (p_calls s) i); [|discriminate].
            injection Hi as Hi. destruct (Hx _ Hi) as [?|[? ?]]; [assumption|destruct Hr; contradiction]. }
          destruct (nth_error (p_calls s) j) as [[k|k|k|r0]|]; try discriminate; destruct (k <? readers); injection Es as <-;
          (eapply Hs'; [reflexivity|intros r' Er; try discriminate; injection Er as <-; (left; reflexivity) || (right; split; discriminate)]).
        - destruct (p_handles s =? 0); [discriminate|]. injection Es as <-. eauto.
        - destruct (p_handles s) as [|[|h]]; [discriminate| |injection Es as <-; eauto].
          destruct (forallb is_finished (p_calls s)); [|discriminate]. destruct (p_flag s); injection Es as <-; [eauto|].
          eapply Hs; [reflexivity|intros r' Er; discriminate]. }
      eapply Hinv; [exact H| |exact Hi|exact Hr]. intros [|j] r' E; discriminate.
  - intros Hh Hf. eapply C30_exactly_once_when_gone; eassumption.
  - intros Hf s' acts' s'' Hs Hr. eapply C30_call_after_call_already; eassumption.
Qed.
Print Assumptions C77_readers_shut_down_once.

(** C77: a flush asks every reader once, in order, before it returns, unless the provider
    was shut down before, in which case it asks none. *)
Theorem C77_flush : forall readers ok acts s, mp_run readers ok acts = Some s ->
  (forall i, nth_error (p_calls s) i = Some (Finished RDelivered) -> sent_log i (p_log s) = seq 0 readers) /\
  (p_flag s = true -> forall s' acts' s'', pstep readers ok true s CallSend = Some s' -> prun readers ok true s' acts' = Some s'' ->
     sent_log (length (p_calls s)) (p_log s'') = []).
Proof.
  intros readers ok acts s H. split.
  - intros i Hi. destruct (C30_delivery_in_order readers ok true acts s i H) as (k & _ & E & Hk). rewrite E, (Hk Hi). reflexivity.
  - intros Hf s' acts' s'' Hs Hr. eapply C30_nothing_delivered_after; eassumption.
Qed.
Print Assumptions C77_flush.

Section meters.
Context {Sc : Type} (sc_eqb : Sc -> Sc -> bool).
Context (Heq : forall a b, sc_eqb a b = true <-> a = b).
Definition reg_ok (s : @mp Sc) : Prop :=
  NoDup (map fst (mp_meters s)) /\ NoDup (map snd (mp_meters s)) /\ Forall (fun p => snd p < mp_next s) (mp_meters s).
Lemma find_in : forall (l : list (Sc * nat)) sc, NoDup (map fst l) ->
  forall id, find (fun p => sc_eqb (fst p) sc) l = Some id <-> In id l /\ fst id = sc.
Proof using Heq.
  clear - Heq. induction l as [|[k v] l IH]; intros sc Hnd id; cbn [find].
  - split; [discriminate|intros [[] _]].
  - cbn [map fst] in *. apply NoDup_cons_iff in Hnd. destruct Hnd as [Hni Hnd]. destruct (sc_eqb k sc) eqn:E.
    + apply Heq in E. subst k. split.
      * intros Hs. injection Hs as <-. split; [left; reflexivity|reflexivity].
      * intros [[<- |Hin] Hf]; [reflexivity|]. exfalso. apply Hni. subst sc. apply in_map. exact Hin.
    + rewrite (IH sc Hnd id). split.
      * intros [Hin Hf]. split; [right; exact Hin|exact Hf].
      * intros [[<- |Hin] Hf]; [|auto]. exfalso. cbn in Hf. subst k. assert (sc_eqb sc sc = true) by (apply Heq; reflexivity). congruence.
Qed.
Lemma reg_step : forall s e, reg_ok s -> reg_ok (snd (mp_step sc_eqb s e)).
Proof using Heq.
  intros s e (H1 & H2 & H3). destruct e as [sc|]; cbn [mp_step]; [|split; [|split]; assumption].
  unfold meter_with_scope. destruct (mp_shutdown s); [split; [|split]; assumption|].
  destruct (find _ _) as [[k v]|] eqn:E; [split; [|split]; assumption|]. cbn [snd].
  unfold reg_ok. cbn [mp_meters mp_next map fst snd]. split; [|split].
  - constructor; [|exact H1]. intros Hin. apply in_map_iff in Hin. destruct Hin as (p & Hp & Hin).
    apply (find_none _ _ E) in Hin. subst sc. assert (sc_eqb (fst p) (fst p) = true) by (apply Heq; reflexivity). congruence.
  - constructor; [|exact H2]. intros Hin. apply in_map_iff in Hin. destruct Hin as (p & Hp & Hin).
    rewrite Forall_forall in H3. specialize (H3 _ Hin). lia.
  - constructor; [cbn; lia|]. eapply Forall_impl; [|exact H3]. cbn. lia.
Qed.
(** The meters handed out for scopes, as an invariant over the events. *)
Lemma meters_gen : forall es s, reg_ok s -> forall i j sc sc' m m',
  nth_error es i = Some (GetMeter sc) -> nth_error es j = Some (GetMeter sc') ->
  nth_error (mp_events sc_eqb s es) i = Some (Some (Sdk m)) -> nth_error (mp_events sc_eqb s es) j = Some (Some (Sdk m')) ->
  (m = m' <-> sc = sc').
Proof using Heq.
  (* every meter handed out stays registered *)
  assert (Hreg : forall es s, reg_ok s -> forall i sc m, nth_error es i = Some (GetMeter sc) ->
    nth_error (mp_events sc_eqb s es) i = Some (Some (Sdk m)) ->
    exists fin, reg_ok fin /\ In (sc, m) (mp_meters fin) /\ fin = fold_left (fun s e => snd (mp_step sc_eqb s e)) es s).
  { assert (Hmono : forall es s p, In p (mp_meters s) -> In p (mp_meters (fold_left (fun s e => snd (mp_step sc_eqb s e)) es s))).
    { induction es as [|e es IH]; intros s p Hp; [exact Hp|]. cbn [fold_left]. apply IH. destruct e as [sc|]; [|exact Hp].
      cbn [mp_step]. unfold meter_with_scope. destruct (mp_shutdown s); [exact Hp|]. destruct (find _ _) as [[k v]|]; [exact Hp|]. right. exact Hp. }
    assert (Hok : forall es s, reg_ok s -> reg_ok (fold_left (fun s e => snd (mp_step sc_eqb s e)) es s)).
    { induction es as [|e es IH]; intros s Hs; [exact Hs|]. cbn [fold_left]. apply IH. apply reg_step. exact Hs. }
    intros es s Hs i sc m Hi Hm. eexists. split; [|split; [|reflexivity]]; [apply Hok; exact Hs|].
    revert s Hs i Hi Hm. induction es as [|e es IH]; intros s Hs i Hi Hm; [destruct i; discriminate|].
    cbn [mp_events fold_left] in *. destruct (mp_step sc_eqb s e) as [m0 s1] eqn:E.
    assert (Es : s1 = snd (mp_step sc_eqb s e)) by (rewrite E; reflexivity). cbn [snd].
    destruct i as [|i]; cbn [nth_error] in *.
    - injection Hi as ->. injection Hm as ->. apply Hmono. cbn [mp_step] in E. unfold meter_with_scope in E.
      destruct (mp_shutdown s); [discriminate|]. destruct (find _ _) as [[k v]|] eqn:Ef.
      + injection E as <- <-. apply find_in in Ef; [|apply Hs]. cbn in Ef. destruct Ef as [Hin ->]. exact Hin.
      + injection E as <- <-. left. reflexivity.
    - eapply IH; [rewrite Es; apply reg_step; exact Hs|exact Hi|exact Hm]. }
  intros es s Hs i j sc sc' m m' Hi Hj Hm Hm'.
  destruct (Hreg es s Hs i sc m Hi Hm) as (fin & (H1 & H2 & _) & Hin & Ef).
  destruct (Hreg es s Hs j sc' m' Hj Hm') as (fin' & _ & Hin' & Ef'). rewrite <- Ef in Ef'. subst fin'. clear - H1 H2 Hin Hin'.
  assert (Hinj : forall (f : Sc * nat -> Sc) l, NoDup (map f l) -> forall x y, In x l -> In y l -> f x = f y -> x = y).
  { clear. intros f l. induction l as [|z l IH]; intros Hnd x y Hx Hy E; [destruct Hx|]. cbn in Hnd. apply NoDup_cons_iff in Hnd. destruct Hnd as [Hni Hnd].
    destruct Hx as [<- |Hx], Hy as [<- |Hy]; [reflexivity| | |apply IH; assumption]; exfalso; apply Hni; [rewrite E|rewrite <- E]; apply in_map; assumption. }
  assert (Hinj2 : forall l, NoDup (map (@snd Sc nat) l) -> forall x y, In x l -> In y l -> snd x = snd y -> x = y).
  { clear. intros l. induction l as [|z l IH]; intros Hnd x y Hx Hy E; [destruct Hx|]. cbn in Hnd. apply NoDup_cons_iff in Hnd. destruct Hnd as [Hni Hnd].
    destruct Hx as [<- |Hx], Hy as [<- |Hy]; [reflexivity| | |apply IH; assumption]; exfalso; apply Hni; [rewrite E|rewrite <- E]; apply in_map; assumption. }
  split; intros E; subst.
  - assert (Ep : (sc, m') = (sc', m')) by (eapply Hinj2; [exact H2|assumption|assumption|reflexivity]). congruence.
  - assert (Ep : (sc', m) = (sc', m')) by (eapply Hinj; [exact H1|assumption|assumption|reflexivity]). congruence.
Qed.
End meters.

(** C77: two requests get the same meter exactly when their scopes are equal; after a
    shutdown every request gets the no-op meter. *)
Theorem C77_meters : forall Sc (sc_eqb : Sc -> Sc -> bool), (forall a b, sc_eqb a b = true <-> a = b) ->
  forall es i j sc sc', nth_error es i = Some (GetMeter sc) -> nth_error es j = Some (GetMeter sc') ->
  (~ In Shut (firstn i es) -> exists m, nth_error (mp_events sc_eqb mp_init es) i = Some (Some (Sdk m))) /\
  (In Shut (firstn i es) -> nth_error (mp_events sc_eqb mp_init es) i = Some (Some Noop)) /\
  (forall m m', nth_error (mp_events sc_eqb mp_init es) i = Some (Some (Sdk m)) ->
     nth_error (mp_events sc_eqb mp_init es) j = Some (Some (Sdk m')) -> (m = m' <-> sc = sc')).
Proof.
  intros Sc sc_eqb Heq es i j sc sc' Hi Hj. split; [|split].
  - assert (H : forall es s i, mp_shutdown s = false -> nth_error es i = Some (GetMeter sc) -> ~ In Shut (firstn i es) ->
      exists m, nth_error (mp_events sc_eqb s es) i = Some (Some (Sdk m))).
    { clear. induction es as [|e es IH]; intros s i Hs Hi Hn; [destruct i; discriminate|]. cbn [mp_events].
      destruct (mp_step sc_eqb s e) as [m0 s1] eqn:E. destruct i as [|i]; cbn [nth_error firstn] in *.
      - injection Hi as ->. cbn [mp_step] in E. unfold meter_with_scope in E. rewrite Hs in E.
        destruct (find _ _) as [[k v]|]; injection E as <- <-; eauto.
      - apply IH; [|exact Hi|intros Hin; apply Hn; right; exact Hin]. destruct e as [sc0|]; [|exfalso; apply Hn; left; reflexivity].
        cbn [mp_step] in E. unfold meter_with_scope in E. rewrite Hs in E. destruct (find _ _) as [[k v]|]; injection E as <- <-; cbn; congruence. }
    apply H; [reflexivity|exact Hi].
  - assert (Hd : forall es s i, mp_shutdown s = true -> nth_error es i = Some (GetMeter sc) -> nth_error (mp_events sc_eqb s es) i = Some (Some Noop)).
    { clear. induction es as [|e es IH]; intros s i Hs Hi; [destruct i; discriminate|]. cbn [mp_events].
      destruct (mp_step sc_eqb s e) as [m0 s1] eqn:E. assert (Es : mp_shutdown s1 = true) by (destruct e; cbn [mp_step] in E; unfold meter_with_scope in E; [rewrite Hs in E|]; injection E as <- <-; cbn; congruence).
      destruct i as [|i]; cbn [nth_error] in *; [|apply IH; assumption].
      injection Hi as ->. cbn [mp_step] in E. unfold meter_with_scope in E. rewrite Hs in E. injection E as <- _. reflexivity. }
    assert (H : forall es s i, nth_error es i = Some (GetMeter sc) -> In Shut (firstn i es) -> nth_error (mp_events sc_eqb s es) i = Some (Some Noop)).
    { clear - Hd. induction es as [|e es IH]; intros s i Hi Hin; [destruct i; discriminate|]. destruct i as [|i]; [destruct Hin|].
      cbn [firstn nth_error mp_events] in *. destruct (mp_step sc_eqb s e) as [m0 s1] eqn:E. cbn [nth_error].
      destruct Hin as [-> |Hin]; [|apply IH; assumption]. cbn in E. injection E as <- <-. apply Hd; [reflexivity|exact Hi]. }
    apply H. exact Hi.
  - intros m m' Hm Hm'. eapply (meters_gen sc_eqb Heq es mp_init); [|exact Hi|exact Hj|exact Hm|exact Hm'].
    unfold reg_ok. cbn. split; [|split]; constructor.
Qed.
Print Assumptions C77_meters.

(** C77: a manual reader yields data from the pipeline it was registered with first, and
    none once it is shut down. *)
Theorem C77_manual_reader : forall Pipe (alive : Pipe -> bool) (p : Pipe) later,
  manual_collect alive (fold_left manual_register later (manual_register manual_init p)) = (if alive p then Some p else None) /\
  manual_collect alive (manual_shutdown (fold_left manual_register later (manual_register manual_init p))) = None /\
  manual_collect alive manual_init = None.
Proof.
  intros Pipe alive p later. split; [|split; reflexivity].
  assert (H : forall later r, mr_producer r = Some p -> mr_producer (fold_left manual_register later r) = Some p).
  { induction later0 as [|q l IH]; intros r Hr; [exact Hr|]. cbn [fold_left]. apply IH. unfold manual_register. now rewrite Hr. }
  unfold manual_collect. now rewrite H.
Qed.
Print Assumptions C77_manual_reader.

Example C77_nonvacuous :
  mp_events Nat.eqb mp_init [GetMeter 4; GetMeter 5; GetMeter 4; Shut; GetMeter 4] =
    [Some (Sdk 0); Some (Sdk 1); Some (Sdk 0); None; Some Noop] /\
  match mp_run 2 (fun k => k =? 0) [CallSend; CallShutdown; Advance 0; CallShutdown; Advance 1; Advance 1; Advance 0; Advance 0; Advance 1; CallSend] with
  | Some s => p_calls s = [Finished RDelivered; Finished RFailed; Finished RAlready; Finished RSkipped] /\ shut_log (p_log s) = [0; 1] /\ sent_log 0 (p_log s) = [0; 1]
  | None => False end.
Proof. split; [reflexivity|]. repeat split; reflexivity. Qed.
