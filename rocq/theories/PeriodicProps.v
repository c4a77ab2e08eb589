(** C57. *)
From Coq Require Import List Bool Arith Lia.
From Verif Require Import ProviderModel ProviderProps PeriodicModel.
Import ListNotations.

Section spec.
Context {X : Type}.
Notation event := (@event X).

(** What the worker thread does to the outside. *)
Definition by_worker (e : event) : bool :=
  match e with ECall _ _ | EReturn _ _ _ => false | _ => true end.
(** One collect-and-export: a failed collection, an empty one, or a non-empty one whose
    data is exported; the flag says whether all went well. *)
Inductive pass (src : source) : bool -> list event -> Prop :=
| pass_failed : pass src false [ECollect src None]
| pass_empty : pass src true [ECollect src (Some [])]
| pass_exported ms ok : ms <> [] -> pass src ok [ECollect src (Some ms); EExportBegin ms; EExportEnd ok].
(** What the worker does for a tick, a flush and a shutdown. *)
Inductive cycle : source -> list event -> Prop :=
| cycle_tick ok l : pass Timer ok l -> cycle Timer l
| cycle_flush c ok l : pass (Call KFlush c) ok l -> cycle (Call KFlush c) (l ++ [EAnswer c ok])
| cycle_shutdown c ok l ok' : pass (Call KShutdown c) ok l ->
    cycle (Call KShutdown c) (l ++ [EExporterShutdown ok'; EAnswer c (ok && ok')]).
Definition is_shutdown (src : source) : Prop := match src with Call KShutdown _ => True | _ => False end.
Definition ids (src : source) : list nat := match src with Timer => [] | Call _ c => [c] end.
(** Call [c] was made, then a whole cycle for it was carried out and answered with [ok],
    all within [log]. *)
Definition served (log : list event) (k : kind) (c : nat) (ok : bool) : Prop :=
  exists a b d, log = a ++ b ++ d /\ In (ECall k c) a /\
    cycle (Call k c) (filter by_worker b) /\ In (EAnswer c ok) (filter by_worker b).
End spec.

Section proofs.
Context {X : Type}.
Notation event := (@event X). Notation state := (@state X). Notation worker := (@worker X).

Definition reach (s : state) : Prop := exists acts, run init acts = Some s.
Lemma run_app : forall acts acts' (s : state), run s (acts ++ acts') = match run s acts with Some s => run s acts' | None => None end.
Proof. induction acts as [|a acts IH]; intros acts' s; cbn [run app]; [reflexivity|]. destruct (step s a); [apply IH|reflexivity]. Qed.
Lemma reach_step : forall s a s', reach s -> step s a = Some s' -> reach s'.
Proof. intros s a s' [acts H] Hs. exists (acts ++ [a]). rewrite run_app, H. cbn [run]. now rewrite Hs. Qed.
Lemma reach_ind : forall P : state -> Prop, P init -> (forall s a s', reach s -> P s -> step s a = Some s' -> P s') ->
  forall s, reach s -> P s.
Proof.
  intros P H0 Hs s [acts H]. revert s H. induction acts as [|a acts IH] using rev_ind; intros s H.
  - injection H as <-. exact H0.
  - rewrite run_app in H. destruct (run init acts) as [s0|] eqn:E; [|discriminate]. cbn [run] in H.
    destruct (step s0 a) as [s1|] eqn:Es; [|discriminate]. injection H as <-.
    eapply Hs; [exists acts; exact E|apply IH; reflexivity|exact Es].
Qed.

(** The part of the current cycle already done in a given worker state. *)
Inductive partial : worker -> list event -> Prop :=
| part_idle : partial WIdle []
| part_exited : partial WExited []
| part_collect src : partial (WCollect src) []
| part_export src ms : ms <> [] -> partial (WExport src ms) [ECollect src (Some ms)]
| part_exporting src ms : ms <> [] -> partial (WExporting src) [ECollect src (Some ms); EExportBegin ms]
| part_shut c ok l : pass (Call KShutdown c) ok l -> partial (WShut c ok) l
| part_flushed c ok l : pass (Call KFlush c) ok l -> partial (WAnswer KFlush c ok) l
| part_down c ok ok' l : pass (Call KShutdown c) ok l -> partial (WAnswer KShutdown c (ok && ok')) (l ++ [EExporterShutdown ok']).
Definition src_of (w : worker) : option source :=
  match w with
  | WIdle | WExited => None
  | WCollect s | WExport s _ | WExporting s => Some s
  | WShut c _ => Some (Call KShutdown c)
  | WAnswer k c _ => Some (Call k c)
  end.
Definition cur (w : worker) : list nat := match src_of w with Some s => ids s | None => [] end.

Lemma nodup_app_l {A} : forall l l' : list A, NoDup (l ++ l') -> NoDup l.
Proof.
  induction l as [|x l IH]; intros l' H; [constructor|]. cbn in H. apply NoDup_cons_iff in H. destruct H as [H1 H2].
  constructor; [|eapply IH; exact H2]. intros Hin. apply H1. apply in_or_app. now left.
Qed.
Lemma filter_snoc {A} : forall (f : A -> bool) l x, filter f (l ++ [x]) = filter f l ++ (if f x then [x] else []).
Proof. intros. rewrite filter_app. cbn. destruct (f x); reflexivity. Qed.

(** ** The worker's history *)
Definition history (s : state) (cycles : list (source * list event)) (rest : list event) : Prop :=
  filter by_worker (st_log s) = concat (map snd cycles) ++ rest /\
  Forall (fun p => cycle (fst p) (snd p)) cycles /\
  partial (st_worker s) rest /\
  NoDup (flat_map ids (map fst cycles) ++ cur (st_worker s) ++ map snd (st_queue s)) /\
  Forall (fun c => c < length (st_calls s)) (flat_map ids (map fst cycles) ++ cur (st_worker s) ++ map snd (st_queue s)) /\
  match st_worker s with
  | WExited => st_queue s = [] /\ exists pre c l, cycles = pre ++ [(Call KShutdown c, l)] /\ Forall (fun p => ~ is_shutdown (fst p)) pre
  | _ => Forall (fun p => ~ is_shutdown (fst p)) cycles
  end.

Lemma set_answer_length : forall c ok cs, length (set_answer c ok cs) = length cs.
Proof. intros. unfold set_answer. destruct (nth_error cs c) as [[k ?|]|]; try reflexivity. apply set_nth_length. Qed.

Lemma hist_same : forall s cycles rest q cs log w,
  history s cycles rest -> filter by_worker log = filter by_worker (st_log s) -> w = st_worker s ->
  q = st_queue s -> length cs = length (st_calls s) -> history (mk q w cs log) cycles rest.
Proof.
  intros s cycles rest q cs log w (H1&H2&H3&H4&H5&H6) Hl -> -> Hc. unfold history. cbn [st_queue st_worker st_calls st_log].
  rewrite Hl, Hc. repeat (split; [assumption|]). assumption.
Qed.

(** One more worker event, staying in the same cycle. *)
Lemma hist_more : forall q w w' cs log e cycles rest,
  history (mk q w cs log) cycles rest -> by_worker e = true -> partial w' (rest ++ [e]) -> cur w' = cur w ->
  w <> WExited -> w' <> WExited -> history (mk q w' cs (log ++ [e])) cycles (rest ++ [e]).
Proof.
  intros q w w' cs log e cycles rest (H1&H2&H3&H4&H5&H6) He Hp Hc Hn Hn'. unfold history in *. cbn [st_queue st_worker st_calls st_log] in *.
  rewrite filter_snoc, He, H1, Hc, app_assoc. repeat (split; [assumption||reflexivity|]). destruct w, w'; congruence || assumption.
Qed.
(** The last worker event of a cycle. *)
Lemma hist_close : forall q w cs cs' log e cycles rest src,
  history (mk q w cs log) cycles rest -> by_worker e = true -> src_of w = Some src -> ~ is_shutdown src -> cycle src (rest ++ [e]) ->
  length cs' = length cs -> history (mk q WIdle cs' (log ++ [e])) (cycles ++ [(src, rest ++ [e])]) [].
Proof.
  intros q w cs cs' log e cycles rest src (H1&H2&H3&H4&H5&H6) He Hs Hn Hc Hl. unfold history, cur in *. cbn [st_queue st_worker st_calls st_log] in *.
  rewrite Hs in *. cbn [src_of app]. rewrite !map_app, concat_app, flat_map_app. cbn [map fst snd concat flat_map]. rewrite !app_nil_r, Hl, <- !app_assoc.
  split; [rewrite filter_snoc, He, H1, app_assoc; reflexivity|].
  split; [apply Forall_app; split; [assumption|constructor; [exact Hc|constructor]]|].
  split; [constructor|]. split; [assumption|]. split; [assumption|].
  apply Forall_app. split; [destruct w; try assumption; discriminate|constructor; [exact Hn|constructor]].
Qed.

Lemma hist_step : forall s a s', step s a = Some s' -> (exists cycles rest, history s cycles rest) -> exists cycles rest, history s' cycles rest.
Proof.
  intros [q w cs log] a s' Hstep (cycles & rest & H).
  destruct a as [k| | |r| |ok|ok| |c|c]; cbn [step] in Hstep.
  - (* ACall *)
    assert (HW : w = WExited \/ w <> WExited) by (destruct w; (left; reflexivity) || (right; discriminate)).
    destruct HW as [-> |HW].
    + injection Hstep as <-. exists cycles, rest. destruct H as (H1&H2&H3&H4&H5&H6). unfold history. cbn [st_queue st_worker st_calls st_log] in *.
      rewrite filter_app. cbn [filter by_worker]. rewrite app_nil_r. repeat (split; [assumption|]). split; [|assumption].
      eapply Forall_impl; [|exact H5]. intros x Hx. cbn in *. rewrite app_length. cbn. lia.
    + assert (E : s' = mk (q ++ [(k, length cs)]) w (cs ++ [Waiting k None]) (log ++ [ECall k (length cs)])) by (destruct w; congruence).
      subst s'. clear Hstep. exists cycles, rest. destruct H as (H1&H2&H3&H4&H5&H6). unfold history. cbn [st_queue st_worker st_calls st_log] in *.
      rewrite filter_snoc. cbn [by_worker]. rewrite app_nil_r.
      assert (EL : flat_map ids (map fst cycles) ++ cur w ++ map snd (q ++ [(k, length cs)]) =
        (flat_map ids (map fst cycles) ++ cur w ++ map snd q) ++ [length cs]) by (rewrite map_app, <- !app_assoc; reflexivity).
      rewrite EL. set (L := flat_map ids (map fst cycles) ++ cur w ++ map snd q) in *. clearbody L.
      repeat (split; [assumption|]). split; [|split].
      * apply NoDup_rev in H4. rewrite <- (rev_involutive (L ++ [length cs])). apply NoDup_rev. rewrite rev_app_distr. cbn [rev app].
        constructor; [|exact H4]. rewrite <- in_rev. intros Hin. rewrite Forall_forall in H5. specialize (H5 _ Hin). lia.
      * rewrite app_length. cbn [length]. apply Forall_app. split.
        -- eapply Forall_impl; [|exact H5]. intros x Hx. cbn in *. lia.
        -- constructor; [lia|constructor].
      * destruct w; assumption || congruence.
  - (* ATake *)
    destruct w; try discriminate. destruct q as [|[k c] q]; [discriminate|]. injection Hstep as <-.
    exists cycles, rest. destruct H as (H1&H2&H3&H4&H5&H6). unfold history, cur in *. cbn [st_queue st_worker st_calls st_log src_of ids app map snd] in *.
    inversion H3; subst rest. repeat (split; [assumption|]). split; [constructor|]. repeat (split; [assumption|]). assumption.
  - destruct w; try discriminate. injection Hstep as <-.
    exists cycles, rest. destruct H as (H1&H2&H3&H4&H5&H6). unfold history, cur in *. cbn [st_queue st_worker st_calls st_log src_of ids app map snd] in *.
    inversion H3; subst rest. repeat (split; [assumption|]). split; [constructor|]. repeat (split; [assumption|]). assumption.
  - (* ACollect *)
    destruct w as [|src| | | | |]; try discriminate.
    assert (rest = []) by (destruct H as (_&_&H3&_); inversion H3; reflexivity). subst rest.
    destruct r as [[|m ms]|]; injection Hstep as <-.
    + destruct src as [|[|] c]; cbn [after_export].
      * eexists _, _. eapply (hist_close _ _ _ _ _ _ _ [] Timer H); [reflexivity|reflexivity|exact id|cbn; eapply cycle_tick; constructor|reflexivity].
      * eexists _, _. eapply (hist_more _ _ _ _ _ _ _ [] H); [reflexivity|cbn; constructor; constructor|reflexivity|discriminate|discriminate].
      * eexists _, _. eapply (hist_more _ _ _ _ _ _ _ [] H); [reflexivity|cbn; constructor; constructor|reflexivity|discriminate|discriminate].
    + eexists _, _. eapply (hist_more _ _ _ _ _ _ _ [] H); [reflexivity|cbn; constructor; discriminate|reflexivity|discriminate|discriminate].
    + destruct src as [|[|] c]; cbn [after_export].
      * eexists _, _. eapply (hist_close _ _ _ _ _ _ _ [] Timer H); [reflexivity|reflexivity|exact id|cbn; eapply cycle_tick; constructor|reflexivity].
      * eexists _, _. eapply (hist_more _ _ _ _ _ _ _ [] H); [reflexivity|cbn; constructor; constructor|reflexivity|discriminate|discriminate].
      * eexists _, _. eapply (hist_more _ _ _ _ _ _ _ [] H); [reflexivity|cbn; constructor; constructor|reflexivity|discriminate|discriminate].
  - (* AExport *)
    destruct w as [| |src ms| | | |]; try discriminate. injection Hstep as <-.
    assert (E : rest = [ECollect src (Some ms)] /\ ms <> []) by (destruct H as (_&_&H3&_); inversion H3; subst; auto). destruct E as [-> Hms].
    eexists _, _. eapply hist_more; [exact H|reflexivity|cbn; constructor; exact Hms|reflexivity|discriminate|discriminate].
  - (* AExported *)
    destruct w as [| | |src| | |]; try discriminate. injection Hstep as <-.
    assert (E : exists ms, rest = [ECollect src (Some ms); EExportBegin ms] /\ ms <> []) by (destruct H as (_&_&H3&_); inversion H3; subst; eauto).
    destruct E as (ms & -> & Hms).
    destruct src as [|[|] c]; cbn [after_export].
    + eexists _, _. eapply hist_close; [exact H|reflexivity|reflexivity|exact id|cbn; eapply cycle_tick; constructor; exact Hms|reflexivity].
    + eexists _, _. eapply hist_more; [exact H|reflexivity|cbn; constructor; constructor; exact Hms|reflexivity|discriminate|discriminate].
    + eexists _, _. eapply hist_more; [exact H|reflexivity|cbn; constructor; constructor; exact Hms|reflexivity|discriminate|discriminate].
  - (* AShutExporter *)
    destruct w as [| | | |c ok'| |]; try discriminate. injection Hstep as <-.
    assert (E : pass (Call KShutdown c) ok' rest) by (destruct H as (_&_&H3&_); inversion H3; subst; assumption).
    eexists _, _. eapply hist_more; [exact H|reflexivity|constructor; exact E|reflexivity|discriminate|discriminate].
  - (* AAnswer *)
    destruct w as [| | | | |[|] c ok|]; try discriminate; injection Hstep as <-.
    + assert (E : pass (Call KFlush c) ok rest) by (destruct H as (_&_&H3&_); inversion H3; subst; assumption).
      eexists _, _. eapply hist_close; [exact H|reflexivity|reflexivity|exact id|constructor; exact E|apply set_answer_length].
    + destruct H as (H1&H2&H3&H4&H5&H6). cbn [st_queue st_worker st_calls st_log] in *. inversion H3 as [| | | | | | |c0 ok1 ok2 l Hp]; subst.
      exists (cycles ++ [(Call KShutdown c, (l ++ [EExporterShutdown ok2]) ++ [EAnswer c (ok1 && ok2)])]), [].
      unfold history, cur in *. cbn [st_queue st_worker st_calls st_log src_of ids app map snd] in *.
      rewrite !map_app, concat_app, flat_map_app. cbn [map fst snd concat flat_map ids]. rewrite !app_nil_r, set_answer_length.
      split; [rewrite filter_snoc, H1; cbn [by_worker]; rewrite !app_assoc; reflexivity|].
      split; [apply Forall_app; split; [assumption|constructor; [cbn [fst snd]; rewrite <- app_assoc; cbn; constructor; exact Hp|constructor]]|].
      split; [constructor|].
      change (c :: map snd q) with ([c] ++ map snd q) in *. rewrite app_assoc in H4, H5.
      split; [apply nodup_app_l in H4; exact H4|].
      split; [apply Forall_app in H5; apply H5|]. split; [reflexivity|].
      eexists _, _, _. split; [reflexivity|exact H6].
  - (* AReturn *)
    exists cycles, rest.
    assert (E : exists k o, s' = mk q w (set_nth c Over cs) (log ++ [EReturn k c o])).
    { destruct (nth_error cs c) as [[k [o|]|]|]; destruct w; try discriminate; injection Hstep as <-; eauto. }
    destruct E as (k & o & ->). eapply hist_same; [exact H|cbn [st_log]; rewrite filter_snoc; cbn; apply app_nil_r|reflexivity|reflexivity|apply set_nth_length].
  - exists cycles, rest.
    assert (E : exists k ok, s' = mk q w (set_nth c Over cs) (log ++ [EReturn k c ok])).
    { destruct w; destruct (nth_error cs c) as [[[|] ?|]|]; try discriminate; injection Hstep as <-; eauto. }
    destruct E as (k & ok & ->). eapply hist_same; [exact H|cbn [st_log]; rewrite filter_snoc; cbn; apply app_nil_r|reflexivity|reflexivity|apply set_nth_length].
Qed.
Lemma history_inv : forall s, reach s -> exists cycles rest, history s cycles rest.
Proof.
  apply reach_ind.
  - exists [], []. unfold history. cbn. repeat split; constructor.
  - intros s a s' _ H Hs. eapply hist_step; eassumption.
Qed.

(** ** The calls *)
Definition cinv (s : state) : Prop :=
  let '(mk q w cs log) := s in
  (forall k c, In (k, c) q -> In (ECall k c) log) /\
  (forall k c, src_of w = Some (Call k c) -> exists a b, log = a ++ b /\ In (ECall k c) a /\ partial w (filter by_worker b)) /\
  (forall c k ok, nth_error cs c = Some (Waiting k (Some ok)) -> served log k c ok) /\
  (forall c k, nth_error cs c = Some (Waiting k None) -> In (k, c) q \/ src_of w = Some (Call k c) \/ w = WExited) /\
  (forall k c k' o, In (k, c) q \/ src_of w = Some (Call k c) -> nth_error cs c = Some (Waiting k' o) -> k' = k /\ o = None) /\
  (forall l l' k c, log = l ++ EReturn k c true :: l' -> served l k c true) /\
  (forall l l' k c, log = l ++ EReturn k c false :: l' ->
     served l k c false \/ (exists ok, In (EExporterShutdown ok) l) \/ k = KShutdown) /\
  (w = WExited -> exists ok, In (EExporterShutdown ok) log).

Lemma served_more : forall (log log' : list event) k c ok, served log k c ok -> served (log ++ log') k c ok.
Proof. intros log log' k c ok (a & b & d & -> & H). exists a, b, (d ++ log'). rewrite <- !app_assoc. auto. Qed.
Lemma last_split {A} : forall (log l l' : list A) x y, log ++ [x] = l ++ y :: l' ->
  (l' = [] /\ x = y /\ log = l) \/ (exists l2, l' = l2 ++ [x] /\ log = l ++ y :: l2).
Proof.
  intros log l l' x y H. destruct l' as [|z l'] using rev_ind.
  - apply app_inj_tail in H. left. tauto.
  - clear IHl'. rewrite app_comm_cons, app_assoc in H. apply app_inj_tail in H. destruct H as [H ->]. right. exists l'. auto.
Qed.
(** Appending an event that is not a return. *)
Lemma returns_other : forall (log : list event) e (Q : list event -> kind -> nat -> Prop) b,
  (forall k c ok, e <> EReturn k c ok) ->
  (forall l l' k c, log = l ++ EReturn k c b :: l' -> Q l k c) ->
  (forall l l' k c, log ++ [e] = l ++ EReturn k c b :: l' -> Q l k c).
Proof.
  intros log e Q b He H l l' k c E. apply last_split in E. destruct E as [(_ & E & _)|(l2 & _ & E)].
  - exfalso. exact (He _ _ _ E).
  - eapply H. exact E.
Qed.
Lemma returns_new : forall (log : list event) k0 c0 b0 (Q : list event -> kind -> nat -> Prop) b,
  (b0 = b -> Q log k0 c0) ->
  (forall l l' k c, log = l ++ EReturn k c b :: l' -> Q l k c) ->
  (forall l l' k c, log ++ [EReturn k0 c0 b0] = l ++ EReturn k c b :: l' -> Q l k c).
Proof.
  intros log k0 c0 b0 Q b H0 H l l' k c E. apply last_split in E. destruct E as [(_ & E & <-)|(l2 & _ & E)].
  - injection E as <- <- <-. auto.
  - eapply H. exact E.
Qed.

Lemma cinv_worker : forall q q' w w' cs log e,
  cinv (mk q w cs log) -> by_worker e = true -> w <> WExited -> w' <> WExited -> q' = q ->
  src_of w' = src_of w -> (forall r, partial w r -> partial w' (r ++ [e])) -> cinv (mk q' w' cs (log ++ [e])).
Proof.
  intros q q' w w' cs log e (H1&H2&H3&H4&H5&H6&H7&H8) He Hw Hw' -> Hs Hp. unfold cinv.
  split; [intros k c Hin; apply in_or_app; left; auto|].
  split. { intros k c E. rewrite Hs in E. destruct (H2 k c E) as (a & b & -> & Ha & Hb). exists a, (b ++ [e]). rewrite app_assoc. split; [reflexivity|]. split; [exact Ha|]. rewrite filter_snoc, He. auto. }
  split; [intros; apply served_more; eauto|].
  split; [intros c k E; destruct (H4 c k E) as [?|[?|?]]; [auto|rewrite Hs; auto|contradiction]|].
  split; [rewrite Hs; exact H5|].
  split; [apply (returns_other _ _ (fun l k c => served l k c true)); [intros k c ok E; subst e; discriminate|exact H6]|].
  split; [apply (returns_other _ _ (fun l k c => served l k c false \/ (exists ok, In (EExporterShutdown ok) l) \/ k = KShutdown)); [intros k c ok E; subst e; discriminate|exact H7]|].
  intros; contradiction.
Qed.
(** The end of a timer cycle. *)
Lemma cinv_tick : forall q w cs log e,
  cinv (mk q w cs log) -> by_worker e = true -> src_of w = Some Timer -> cinv (mk q WIdle cs (log ++ [e])).
Proof.
  intros q w cs log e (H1&H2&H3&H4&H5&H6&H7&H8) He Hs. unfold cinv.
  split; [intros k c Hin; apply in_or_app; left; auto|].
  split; [discriminate|].
  split; [intros; apply served_more; eauto|].
  split; [intros c k E; destruct (H4 c k E) as [?|[?| ->]]; [auto|congruence|discriminate]|].
  split; [intros k c k' o [Hin|E]; [apply H5; auto|discriminate]|].
  split; [apply (returns_other _ _ (fun l k c => served l k c true)); [intros k c ok E; subst e; discriminate|exact H6]|].
  split; [apply (returns_other _ _ (fun l k c => served l k c false \/ (exists ok, In (EExporterShutdown ok) l) \/ k = KShutdown)); [intros k c ok E; subst e; discriminate|exact H7]|].
  discriminate.
Qed.

Lemma set_answer_nth : forall c ok cs i, nth_error (set_answer c ok cs) i =
  if Nat.eqb c i then match nth_error cs i with Some (Waiting k _) => Some (Waiting k (Some ok)) | x => x end else nth_error cs i.
Proof.
  intros c ok cs i. unfold set_answer. destruct (Nat.eqb_spec c i) as [-> |Hn].
  - destruct (nth_error cs i) as [[k o|]|] eqn:E; try exact E. rewrite nth_set_nth, Nat.eqb_refl, E. reflexivity.
  - destruct (nth_error cs c) as [[k o|]|] eqn:E; try reflexivity. rewrite nth_set_nth. apply Nat.eqb_neq in Hn. now rewrite Hn.
Qed.

Lemma cinv_answer : forall q q' w' k0 c0 ok cs log,
  cinv (mk q (WAnswer k0 c0 ok) cs log) ->
  (forall r, partial (WAnswer k0 c0 ok) r -> cycle (Call k0 c0) (r ++ [EAnswer c0 ok])) ->
  ~ In c0 (map snd q) -> (q' = q /\ w' = WIdle) \/ (q' = [] /\ w' = WExited /\ exists r, In (EExporterShutdown r) log) ->
  cinv (mk q' w' (set_answer c0 ok cs) (log ++ [EAnswer c0 ok])).
Proof.
  intros q q' w' k0 c0 ok cs log (H1&H2&H3&H4&H5&H6&H7&H8) Hc Hq Hw. unfold cinv.
  assert (Hsub : forall x, In x q' -> In x q) by (destruct Hw as [[-> _]|[-> _]]; [auto|intros x []]).
  assert (Hnone : src_of w' = None) by (destruct Hw as [[_ ->]|[_ [-> _]]]; reflexivity).
  split; [intros k c Hin; apply in_or_app; left; auto|].
  split; [rewrite Hnone; discriminate|].
  split.
  { intros c k ok' E. rewrite set_answer_nth in E. destruct (Nat.eqb_spec c0 c) as [<- |Hn].
    - destruct (nth_error cs c0) as [[k1 o|]|] eqn:En; try discriminate. injection E as <- <-.
      destruct (H5 k0 c0 k1 o (or_intror eq_refl) En) as [-> ->].
      destruct (H2 k0 c0 eq_refl) as (a & b & -> & Ha & Hb). exists a, (b ++ [EAnswer c0 ok]), [].
      rewrite app_nil_r, app_assoc. split; [reflexivity|]. split; [exact Ha|]. rewrite filter_snoc. cbn [by_worker].
      split; [auto|apply in_or_app; right; left; reflexivity].
    - apply served_more. eauto. }
  split.
  { intros c k E. rewrite set_answer_nth in E. destruct (Nat.eqb_spec c0 c) as [<- |Hn].
    - destruct (nth_error cs c0) as [[k1 o|]|]; discriminate.
    - destruct (H4 c k E) as [Hin|[E'|E']]; [|cbn in E'; congruence|discriminate].
      destruct Hw as [[-> _]|[_ [-> _]]]; auto. }
  split.
  { intros k c k' o [Hin|E] En; [|rewrite Hnone in E; discriminate]. rewrite set_answer_nth in En.
    destruct (Nat.eqb_spec c0 c) as [<- |Hn]; [|apply (H5 k c); auto].
    exfalso. apply Hq. apply in_map_iff. exists (k, c0). split; [reflexivity|]. apply Hsub. exact Hin. }
  split; [apply (returns_other _ _ (fun l k c => served l k c true)); [discriminate|exact H6]|].
  split; [apply (returns_other _ _ (fun l k c => served l k c false \/ (exists ok, In (EExporterShutdown ok) l) \/ k = KShutdown)); [discriminate|exact H7]|].
  intros E. destruct Hw as [[_ ->]|[_ [_ [r Hr]]]]; [discriminate|]. exists r. apply in_or_app. now left.
Qed.

Lemma cinv_return : forall q w cs log k0 c0 b0,
  cinv (mk q w cs log) ->
  (b0 = true -> served log k0 c0 true) ->
  (b0 = false -> served log k0 c0 false \/ (exists ok, In (EExporterShutdown ok) log) \/ k0 = KShutdown) ->
  cinv (mk q w (set_nth c0 Over cs) (log ++ [EReturn k0 c0 b0])).
Proof.
  intros q w cs log k0 c0 b0 (H1&H2&H3&H4&H5&H6&H7&H8) Ht Hf. unfold cinv.
  assert (Hn : forall c x y, nth_error (set_nth c0 Over cs) c = Some (Waiting x y) -> nth_error cs c = Some (Waiting x y)).
  { intros c x y E. rewrite nth_set_nth in E. destruct (Nat.eqb c0 c); [|exact E]. destruct (nth_error cs c); discriminate. }
  split; [intros k c Hin; apply in_or_app; left; auto|].
  split. { intros k c E. destruct (H2 k c E) as (a & b & -> & Ha & Hb). exists a, (b ++ [EReturn k0 c0 b0]). rewrite app_assoc. split; [reflexivity|]. split; [exact Ha|]. rewrite filter_snoc. cbn. now rewrite app_nil_r. }
  split; [intros; apply served_more; eauto|].
  split; [intros; eauto|].
  split; [intros; eapply H5; eauto|].
  split; [apply (returns_new _ _ _ _ (fun l k c => served l k c true)); assumption|].
  split; [apply (returns_new _ _ _ _ (fun l k c => served l k c false \/ (exists ok, In (EExporterShutdown ok) l) \/ k = KShutdown)); assumption|].
  intros E. destruct (H8 E) as [r Hr]. exists r. apply in_or_app. now left.
Qed.

Lemma cinv_step : forall s a s', reach s -> cinv s -> step s a = Some s' -> cinv s'.
Proof.
  intros [q w cs log] a s' Hr H Hstep.
  destruct (history_inv _ Hr) as (cycles & rest & _ & _ & _ & Hnd & Hlt & _). cbn [st_worker st_queue st_calls] in Hnd, Hlt.
  destruct a as [k| | |r| |ok|ok| |c|c]; cbn [step] in Hstep.
  - (* ACall *)
    assert (HW : w = WExited \/ w <> WExited) by (destruct w; (left; reflexivity) || (right; discriminate)).
    destruct H as (H1&H2&H3&H4&H5&H6&H7&H8). destruct HW as [-> |HW].
    + injection Hstep as <-. unfold cinv. destruct (H8 eq_refl) as [r Hr8].
      replace (log ++ [ECall k (length cs); EReturn k (length cs) false]) with ((log ++ [ECall k (length cs)]) ++ [EReturn k (length cs) false]) by (rewrite <- app_assoc; reflexivity).
      assert (Hn : forall c x y, nth_error (cs ++ [Over]) c = Some (Waiting x y) -> nth_error cs c = Some (Waiting x y)).
      { intros c x y E. destruct (Nat.lt_ge_cases c (length cs)); [rewrite nth_error_app1 in E; assumption|]. rewrite nth_error_app2 in E by assumption.
        destruct (c - length cs) as [|n]; [discriminate|]. cbn in E. destruct n; discriminate. }
      split; [intros; apply in_or_app; left; apply in_or_app; left; auto|].
      split; [discriminate|].
      split; [intros; apply served_more; apply served_more; eauto|].
      split; [intros; auto|]. split; [intros; eapply H5; eauto|].
      split. { apply (returns_new _ _ _ _ (fun l k c => served l k c true)); [discriminate|]. apply (returns_other _ _ (fun l k c => served l k c true)); [discriminate|exact H6]. }
      split. { apply (returns_new _ _ _ _ (fun l k c => served l k c false \/ (exists ok, In (EExporterShutdown ok) l) \/ k = KShutdown)).
        - intros _. right. left. exists r. apply in_or_app. now left.
        - apply (returns_other _ _ (fun l k c => served l k c false \/ (exists ok, In (EExporterShutdown ok) l) \/ k = KShutdown)); [discriminate|exact H7]. }
      intros _. exists r. apply in_or_app. left. apply in_or_app. now left.
    + assert (E : s' = mk (q ++ [(k, length cs)]) w (cs ++ [Waiting k None]) (log ++ [ECall k (length cs)])) by (destruct w; congruence).
      subst s'. clear Hstep. unfold cinv.
      assert (Hfresh : forall k0 c, In (k0, c) q \/ src_of w = Some (Call k0 c) -> c < length cs).
      { intros k0 c Hc. rewrite Forall_forall in Hlt. apply Hlt. apply in_or_app. right. apply in_or_app.
        destruct Hc as [Hc|Hc]; [right; apply in_map_iff; exists (k0, c); auto|left; unfold cur; rewrite Hc; left; reflexivity]. }
      assert (Hn : forall c x, nth_error (cs ++ [Waiting k None]) c = Some x -> nth_error cs c = Some x \/ (c = length cs /\ x = Waiting k None)).
      { intros c x E. destruct (Nat.lt_ge_cases c (length cs)); [rewrite nth_error_app1 in E; auto|]. rewrite nth_error_app2 in E by assumption.
        destruct (c - length cs) as [|n] eqn:En; [right; split; [lia|cbn in E; congruence]|]. cbn in E. destruct n; discriminate. }
      split. { intros k0 c Hin. apply in_app_or in Hin. apply in_or_app. destruct Hin as [Hin|[Hin|[]]]; [left; auto|right; left; congruence]. }
      split. { intros k0 c E. destruct (H2 k0 c E) as (a & b & -> & Ha & Hb). exists a, (b ++ [ECall k (length cs)]). rewrite app_assoc. split; [reflexivity|]. split; [exact Ha|]. rewrite filter_snoc. cbn. now rewrite app_nil_r. }
      split. { intros c k0 ok E. destruct (Hn _ _ E) as [E'|[_ E']]; [apply served_more; eauto|discriminate]. }
      split. { intros c k0 E. destruct (Hn _ _ E) as [E'|[-> E']].
               - destruct (H4 c k0 E') as [?|[?|?]]; [left; apply in_or_app; auto|auto|auto].
               - injection E' as ->. left. apply in_or_app. right. left. reflexivity. }
      split. { intros k0 c k' o Hc E. destruct (Hn _ _ E) as [E'|[-> E']].
               - apply (H5 k0 c k' o); [|exact E']. destruct Hc as [Hc|Hc]; [|auto]. apply in_app_or in Hc. destruct Hc as [Hc|[Hc|[]]]; [auto|].
                 injection Hc as <- <-. exfalso. assert (length cs < length cs) by (apply nth_error_Some; congruence). lia.
               - injection E' as -> ->. split; [|reflexivity]. destruct Hc as [Hc|Hc].
                 + apply in_app_or in Hc. destruct Hc as [Hc|[Hc|[]]]; [|congruence]. exfalso. specialize (Hfresh k0 _ (or_introl Hc)). lia.
                 + exfalso. specialize (Hfresh k0 _ (or_intror Hc)). lia. }
      split; [apply (returns_other _ _ (fun l k c => served l k c true)); [discriminate|exact H6]|].
      split; [apply (returns_other _ _ (fun l k c => served l k c false \/ (exists ok, In (EExporterShutdown ok) l) \/ k = KShutdown)); [discriminate|exact H7]|].
      intros; contradiction.
  - (* ATake *)
    destruct w; try discriminate. destruct q as [|[k c] q]; [discriminate|]. injection Hstep as <-.
    destruct H as (H1&H2&H3&H4&H5&H6&H7&H8). unfold cinv.
    split; [intros; apply H1; right; assumption|].
    split. { intros k0 c0 E. cbn in E. injection E as <- <-. exists log, []. rewrite app_nil_r. split; [reflexivity|]. split; [apply H1; left; reflexivity|constructor]. }
    split; [assumption|].
    split. { intros c0 k0 E. destruct (H4 c0 k0 E) as [[Hin|Hin]|[Hin|Hin]]; try discriminate; [injection Hin as <- <-; right; left; reflexivity|auto]. }
    split. { intros k0 c0 k' o [Hin|E] En; apply (H5 k0 c0 k' o); auto; [left; right; exact Hin|]. cbn in E. injection E as <- <-. left. left. reflexivity. }
    split; [assumption|]. split; [assumption|]. discriminate.
  - destruct w; try discriminate. injection Hstep as <-.
    destruct H as (H1&H2&H3&H4&H5&H6&H7&H8). unfold cinv.
    split; [assumption|]. split; [discriminate|]. split; [assumption|].
    split; [intros c0 k0 E; destruct (H4 c0 k0 E) as [?|[?|?]]; try discriminate; auto|].
    split; [intros k0 c0 k' o [Hin|E] En; [apply (H5 k0 c0 k' o); auto|discriminate]|].
    split; [assumption|]. split; [assumption|]. discriminate.
  - (* ACollect *)
    destruct w as [|src| | | | |]; try discriminate.
    destruct r as [[|m ms]|]; injection Hstep as <-.
    + destruct src as [|[|] c]; cbn [after_export].
      * eapply cinv_tick; [exact H|reflexivity|reflexivity].
      * eapply cinv_worker; [exact H|reflexivity|discriminate|discriminate|reflexivity|reflexivity|intros r Hp; inversion Hp; cbn; constructor; constructor].
      * eapply cinv_worker; [exact H|reflexivity|discriminate|discriminate|reflexivity|reflexivity|intros r Hp; inversion Hp; cbn; constructor; constructor].
    + eapply cinv_worker; [exact H|reflexivity|discriminate|discriminate|reflexivity|reflexivity|intros r Hp; inversion Hp; cbn; constructor; discriminate].
    + destruct src as [|[|] c]; cbn [after_export].
      * eapply cinv_tick; [exact H|reflexivity|reflexivity].
      * eapply cinv_worker; [exact H|reflexivity|discriminate|discriminate|reflexivity|reflexivity|intros r Hp; inversion Hp; cbn; constructor; constructor].
      * eapply cinv_worker; [exact H|reflexivity|discriminate|discriminate|reflexivity|reflexivity|intros r Hp; inversion Hp; cbn; constructor; constructor].
  - (* AExport *)
    destruct w as [| |src ms| | | |]; try discriminate. injection Hstep as <-.
    eapply cinv_worker; [exact H|reflexivity|discriminate|discriminate|reflexivity|reflexivity|intros r Hp; inversion Hp; subst; cbn; constructor; assumption].
  - (* AExported *)
    destruct w as [| | |src| | |]; try discriminate. injection Hstep as <-.
    destruct src as [|[|] c]; cbn [after_export].
    + eapply cinv_tick; [exact H|reflexivity|reflexivity].
    + eapply cinv_worker; [exact H|reflexivity|discriminate|discriminate|reflexivity|reflexivity|intros r Hp; inversion Hp; subst; cbn; constructor; constructor; assumption].
    + eapply cinv_worker; [exact H|reflexivity|discriminate|discriminate|reflexivity|reflexivity|intros r Hp; inversion Hp; subst; cbn; constructor; constructor; assumption].
  - (* AShutExporter *)
    destruct w as [| | | |c ok'| |]; try discriminate. injection Hstep as <-.
    eapply cinv_worker; [exact H|reflexivity|discriminate|discriminate|reflexivity|reflexivity|intros r Hp; inversion Hp; subst; cbn; constructor; assumption].
  - (* AAnswer *)
    assert (Hq : forall k c ok, w = WAnswer k c ok -> ~ In c (map snd q)).
    { intros k c ok -> Hin. cbn in Hnd.
      assert (Hx : NoDup (c :: map snd q)) by (revert Hnd; generalize (flat_map ids (map fst cycles)); intros L; induction L; [auto|intros Hx; apply NoDup_cons_iff in Hx; tauto]).
      apply NoDup_cons_iff in Hx. tauto. }
    destruct w as [| | | | |[|] c ok|]; try discriminate; injection Hstep as <-.
    + eapply cinv_answer; [exact H|intros r Hp; inversion Hp; subst; constructor; assumption|eapply Hq; reflexivity|auto].
    + eapply cinv_answer; [exact H|intros r Hp; inversion Hp; subst; rewrite <- app_assoc; cbn; constructor; assumption|eapply Hq; reflexivity|].
      right. split; [reflexivity|]. split; [reflexivity|].
      destruct H as (_&H2&_). destruct (H2 KShutdown c eq_refl) as (a & b & -> & _ & Hp). inversion Hp as [| | | | | | |c0 ok1 ok2 l Hpl Ec Eb]. subst.
      exists ok2. apply in_or_app. right. assert (Hin : In (EExporterShutdown ok2) (filter by_worker b)) by (rewrite <- Eb; apply in_or_app; right; left; reflexivity).
      apply filter_In in Hin. apply Hin.
  - (* AReturn *)
    destruct (nth_error cs c) as [[k [ok|]|]|] eqn:En.
    + assert (E : s' = mk q w (set_nth c Over cs) (log ++ [EReturn k c ok])) by (destruct w; congruence). subst s'.
      assert (Hs : served log k c ok) by (destruct H as (_&_&H3&_); eauto).
      eapply cinv_return; [exact H|intros ->; exact Hs|intros ->; left; exact Hs].
    + destruct w; try discriminate. injection Hstep as <-.
      eapply cinv_return; [exact H|discriminate|intros _; right; left]. destruct H as (_&_&_&_&_&_&_&H8). auto.
    + destruct w; discriminate.
    + destruct w; discriminate.
  - destruct (nth_error cs c) as [[[|] o|]|] eqn:En; try (destruct w; discriminate).
    assert (E : s' = mk q w (set_nth c Over cs) (log ++ [EReturn KShutdown c false])) by (destruct w; congruence). subst s'.
    eapply cinv_return; [exact H|discriminate|auto].
Qed.
Lemma cinv_inv : forall s, reach s -> cinv s.
Proof.
  apply reach_ind.
  - unfold cinv, init. split; [intros ? ? []|]. split; [discriminate|].
    split; [intros [|c] ? ?; discriminate|]. split; [intros [|c] ?; discriminate|]. split; [intros ? [|c] ? ? ?; discriminate|].
    split; [intros [|? ?]; discriminate|]. split; [intros [|? ?]; discriminate|]. discriminate.
  - intros s a s' Hr H Hs. eapply cinv_step; eassumption.
Qed.

(** Once the worker is gone it stays silent. *)
Lemma exited_silent : forall acts (s s' : state), st_worker s = WExited -> run s acts = Some s' ->
  st_worker s' = WExited /\ filter by_worker (st_log s') = filter by_worker (st_log s).
Proof.
  induction acts as [|a acts IH]; intros s s' Hw H; [injection H as <-; auto|].
  cbn [run] in H. destruct (step s a) as [s1|] eqn:Es; [|discriminate].
  destruct s as [q w cs log]. cbn [st_worker st_log] in *. subst w.
  assert (H1 : st_worker s1 = WExited /\ filter by_worker (st_log s1) = filter by_worker log).
  { destruct a as [k| | |r| |ok|ok| |c|c]; cbn [step] in Es; try discriminate.
    - injection Es as <-. cbn. rewrite filter_app. cbn. now rewrite app_nil_r.
    - destruct (nth_error cs c) as [[k [ok|]|]|]; try discriminate; injection Es as <-; cbn; rewrite filter_snoc; cbn; now rewrite app_nil_r.
    - destruct (nth_error cs c) as [[[|] o|]|]; try discriminate; injection Es as <-; cbn; rewrite filter_snoc; cbn; now rewrite app_nil_r. }
  destruct H1 as [Hw1 Hl]. destruct (IH _ _ Hw1 H) as [? Hl2]. split; [assumption|congruence].
Qed.
End proofs.

(** C57: in every execution the worker's actions are a sequence of complete cycles, one
    per tick or message, followed by the beginning of a cycle: a collection, the export
    of exactly what was collected unless it is empty or failed, the answer.  Each call
    is the source of at most one cycle.  A shutdown cycle, which also shuts the exporter
    down, is the last thing the worker does. *)
Theorem C57_worker_history : forall X acts (s : @state X), run init acts = Some s ->
  exists cycles rest, filter by_worker (st_log s) = concat (map snd cycles) ++ rest /\
    Forall (fun p => cycle (fst p) (snd p)) cycles /\
    (exists src tail, cycle src (rest ++ tail) /\ tail <> []) /\
    NoDup (flat_map ids (map fst cycles)) /\
    (forall pre c l post, cycles = pre ++ (Call KShutdown c, l) :: post -> post = [] /\ rest = []).
Proof.
  intros X acts s H. destruct (history_inv s (ex_intro _ acts H)) as (cycles & rest & H1 & H2 & H3 & H4 & H5 & H6).
  exists cycles, rest. split; [exact H1|]. split; [exact H2|]. split.
  { inversion H3 as [Ew|Ew|src Ew|src ms Hm Ew|src ms Hm Ew|c ok l Hp Ew|c ok l Hp Ew|c ok ok' l Hp Ew]; subst.
    - exists Timer, [ECollect Timer None]. split; [apply (cycle_tick false); constructor|discriminate].
    - exists Timer, [ECollect Timer None]. split; [apply (cycle_tick false); constructor|discriminate].
    - exists Timer, [ECollect Timer None]. split; [apply (cycle_tick false); constructor|discriminate].
    - destruct src as [|[|] c].
      + exists Timer, [EExportBegin ms; EExportEnd true]. split; [apply (cycle_tick true); constructor; exact Hm|discriminate].
      + exists (Call KFlush c), ([EExportBegin ms; EExportEnd true] ++ [EAnswer c true]). split; [apply (cycle_flush c true [ECollect (Call KFlush c) (Some ms); EExportBegin ms; EExportEnd true]); constructor; exact Hm|discriminate].
      + exists (Call KShutdown c), ([EExportBegin ms; EExportEnd true] ++ [EExporterShutdown true; EAnswer c true]). split; [apply (cycle_shutdown c true [ECollect (Call KShutdown c) (Some ms); EExportBegin ms; EExportEnd true] true); constructor; exact Hm|discriminate].
    - destruct src as [|[|] c].
      + exists Timer, [EExportEnd true]. split; [apply (cycle_tick true); constructor; exact Hm|discriminate].
      + exists (Call KFlush c), ([EExportEnd true] ++ [EAnswer c true]). split; [apply (cycle_flush c true [ECollect (Call KFlush c) (Some ms); EExportBegin ms; EExportEnd true]); constructor; exact Hm|discriminate].
      + exists (Call KShutdown c), ([EExportEnd true] ++ [EExporterShutdown true; EAnswer c true]). split; [apply (cycle_shutdown c true [ECollect (Call KShutdown c) (Some ms); EExportBegin ms; EExportEnd true] true); constructor; exact Hm|discriminate].
    - exists (Call KShutdown c), [EExporterShutdown true; EAnswer c (ok && true)]. split; [constructor; exact Hp|discriminate].
    - exists (Call KFlush c), [EAnswer c ok]. split; [constructor; exact Hp|discriminate].
    - exists (Call KShutdown c), [EAnswer c (ok && ok')]. split; [rewrite <- app_assoc; cbn; constructor; exact Hp|discriminate]. }
  split; [apply nodup_app_l in H4; exact H4|].
  intros pre c l post ->. destruct (st_worker s) eqn:Ew;
    try (apply Forall_app in H6; destruct H6 as [_ H6]; inversion H6 as [|x y Hx Hy]; subst; exfalso; apply Hx; exact I).
  destruct H6 as (_ & pre' & c' & l' & E & Hf). inversion H3; subst. split; [|reflexivity].
  destruct post as [|p post] using rev_ind; [reflexivity|]. clear IHpost. exfalso.
  rewrite app_comm_cons, app_assoc in E. apply app_inj_tail in E. destruct E as [E _]. subst pre'.
  apply Forall_app in Hf. destruct Hf as [_ Hf]. inversion Hf as [|x y Hx Hy]; subst. apply Hx. exact I.
Qed.
Print Assumptions C57_worker_history.

(** C57: when a call returns success, its whole cycle was carried out between the call
    and its return, and went well; when a flush returns an error, its cycle was carried
    out and failed, or the reader had been shut down before the return. *)
Theorem C57_calls_answered_after_export : forall X acts (s : @state X) l l' k c ok,
  run init acts = Some s -> st_log s = l ++ EReturn k c ok :: l' ->
  match ok with
  | true => served l k c true
  | false => served l k c false \/ (exists r, In (EExporterShutdown r) l) \/ k = KShutdown
  end.
Proof.
  intros X acts s l l' k c ok H E. pose proof (cinv_inv s (ex_intro _ acts H)) as Hc. destruct s as [q w cs log]. cbn [st_log] in E.
  destruct Hc as (_&_&_&_&_&H6&H7&_). destruct ok; eauto.
Qed.
Print Assumptions C57_calls_answered_after_export.

(** C57: once the exporter was shut down it is not used again; and after a shutdown
    returned success the reader neither collects nor exports. *)
Theorem C57_nothing_after_shutdown : forall X acts (s : @state X) l l',
  run init acts = Some s ->
  (forall ok, st_log s = l ++ EExporterShutdown ok :: l' ->
     Forall (fun e => match e with ECollect _ _ | EExportBegin _ | EExportEnd _ | EExporterShutdown _ => False | _ => True end) l') /\
  (forall c, st_log s = l ++ EReturn KShutdown c true :: l' -> Forall (fun e => by_worker e = false) l').
Proof.
  intros X acts s l l' H.
  destruct (C57_worker_history X acts s H) as (cycles & rest & H1 & H2 & (src & tail & H3 & _) & _ & H5).
  assert (Hgen : forall l1 ok l2, filter by_worker (st_log s) = l1 ++ EExporterShutdown ok :: l2 -> l2 = [] \/ exists c o, l2 = [EAnswer c o]).
  { intros l1 ok l2 E. rewrite E in H1. clear E.
    assert (Hin : forall (p : source * list (@event X)), cycle (fst p) (snd p) -> forall a b, snd p = a ++ EExporterShutdown ok :: b ->
       (exists c, fst p = Call KShutdown c) /\ exists c o, b = [EAnswer c o]).
    { intros [src0 ev] Hc a b Eb. cbn [fst snd] in *.
      assert (Hi : In (EExporterShutdown ok) ev) by (rewrite Eb; apply in_elt).
      inversion Hc as [ok0 l0 Hp E1 E2|c0 ok0 l0 Hp E1 E2|c0 ok0 l0 ok1 Hp E1 E2]; clear Hc.
      - exfalso. destruct Hp; cbn in Hi; repeat (destruct Hi as [Hi|Hi]; [discriminate|]); exact Hi.
      - exfalso. rewrite <- E2 in Hi. destruct Hp; cbn in Hi; repeat (destruct Hi as [Hi|Hi]; [discriminate|]); exact Hi.
      - split; [eauto|]. rewrite <- E2 in Eb. clear E1 E2 Hi.
        destruct Hp; cbn [app] in Eb;
        repeat (destruct a as [|? a]; cbn [app] in Eb; [first [discriminate | injection Eb as _ <-; eauto]|injection Eb as _ Eb]); try discriminate; destruct a; discriminate. }
    revert l1 H1 H2 H5. induction cycles as [|p cycles IH]; intros l1 H1 H2 H5.
    - cbn [map concat app] in H1. subst rest. rewrite <- app_assoc in H3. cbn [app] in H3.
      destruct (Hin (src, l1 ++ EExporterShutdown ok :: l2 ++ tail) H3 l1 (l2 ++ tail) eq_refl) as (_ & c & o & E).
      destruct l2 as [|x [|y l2]]; [auto|right; injection E as -> _; eauto|discriminate].
    - cbn [map concat] in H1. rewrite <- app_assoc in H1. inversion H2 as [|x y Hp Hc]; subst.
      (* is the event in the first cycle? *)
      assert (Hd : (exists z, snd p = l1 ++ EExporterShutdown ok :: z /\ l2 = z ++ concat (map snd cycles) ++ rest) \/
                   (exists z, l1 = snd p ++ z /\ concat (map snd cycles) ++ rest = z ++ EExporterShutdown ok :: l2)).
      { revert H1. generalize (concat (map snd cycles) ++ rest). clear. intros R. revert l1. generalize (snd p). intros ev. induction ev as [|e ev IHe]; intros l1 H1.
        - right. exists l1. auto.
        - destruct l1 as [|e1 l1]; cbn in H1.
          + injection H1 as E1 E2; subst e l2. left. exists ev. auto.
          + injection H1 as E1 H1; subst e1. destruct (IHe l1 H1) as [(z & Ez1 & Ez2)|(z & Ez1 & Ez2)]; [left|right]; exists z; subst; auto. }
      destruct Hd as [(z & E1 & ->)|(z & -> & E2)].
      + destruct (Hin p Hp _ _ E1) as ((c & Es) & c' & o & ->).
        destruct p as [src0 ev]. cbn [fst] in Es. subst src0.
        destruct (H5 [] c ev cycles eq_refl) as [-> ->]. right. cbn. eauto.
      + apply (IH z); [symmetry; exact E2|exact Hc|]. intros pre c l0 post E. apply (H5 (p :: pre) c l0 post). now rewrite E. }
  split.
  - intros ok E. specialize (Hgen (filter by_worker l) ok (filter by_worker l')).
    rewrite E, filter_app in Hgen. cbn [filter by_worker] in Hgen. specialize (Hgen eq_refl).
    apply Forall_forall. intros e He. destruct (by_worker e) eqn:Eb; [|destruct e; cbn in Eb; try discriminate; exact I].
    assert (Hi : In e (filter by_worker l')) by (apply filter_In; auto).
    destruct Hgen as [Hg|(c & o & Hg)]; rewrite Hg in Hi; [destruct Hi|destruct Hi as [<- |[]]; exact I].
  - intros c E. pose proof (C57_calls_answered_after_export X acts s l l' _ _ _ H E) as (a & b & d & -> & Ha & Hc & Hans).
    inversion Hc as [|?|c0 ok0 l0 ok1 Hp Ec Eb]. subst.
    assert (Ew : filter by_worker (st_log s) = (filter by_worker a ++ l0) ++ EExporterShutdown ok1 :: ([EAnswer c (ok0 && ok1)] ++ filter by_worker d ++ filter by_worker l')).
    { rewrite E, !filter_app. cbn [filter by_worker]. rewrite <- Eb, <- !app_assoc. reflexivity. }
    destruct (Hgen _ _ _ Ew) as [Hg|(c1 & o & Hg)]; [discriminate|]. cbn in Hg. injection Hg as _ _ Hg. apply app_eq_nil in Hg. destruct Hg as [_ Hg].
    apply Forall_forall. intros e He. destruct (by_worker e) eqn:Ebe; [|reflexivity].
    assert (Hi : In e (filter by_worker l')) by (apply filter_In; auto). rewrite Hg in Hi. destruct Hi.
Qed.
Print Assumptions C57_nothing_after_shutdown.

(** * No call is left hanging *)
Section progress.
Context {X : Type}.
(** The steps of the worker on behalf of what it was asked, and calls returning. *)
Definition serving (a : @action X) : Prop := match a with ACall _ | ATimeout | AGiveUp _ => False | _ => True end.
Definition is_waiting (c : cstate) : bool := match c with Waiting _ _ => true | Over => false end.
Definition stage (w : @worker X) : nat :=
  match w with WIdle | WExited => 0 | WAnswer _ _ _ => 1 | WShut _ _ => 2 | WExporting _ => 3 | WExport _ _ => 4 | WCollect _ => 5 end.
Definition todo (s : @state X) : nat :=
  6 * length (st_queue s) + stage (st_worker s) + length (filter is_waiting (st_calls s)).

Lemma count_set : forall cs c x, nth_error cs c = Some x -> is_waiting x = true ->
  S (length (filter is_waiting (set_nth c Over cs))) = length (filter is_waiting cs).
Proof.
  induction cs as [|y cs IH]; intros [|c] x E Hx; cbn in E; try discriminate.
  - injection E as ->. cbn [set_nth filter is_waiting]. rewrite Hx. reflexivity.
  - cbn [set_nth filter]. specialize (IH c x E Hx). destruct (is_waiting y); cbn [length]; lia.
Qed.
Lemma count_answer : forall cs c ok, length (filter is_waiting (set_answer c ok cs)) = length (filter is_waiting cs).
Proof.
  intros cs c ok. unfold set_answer. destruct (nth_error cs c) as [[k o|]|] eqn:E; try reflexivity.
  revert c E. induction cs as [|y cs IH]; intros [|c] E; cbn in E; try discriminate.
  - injection E as ->. reflexivity.
  - cbn [set_nth filter]. destruct (is_waiting y); cbn [length]; rewrite IH by exact E; reflexivity.
Qed.
Lemma stage_after : forall src ok, stage (after_export src ok) <= 2.
Proof. intros [|[|] c] ok; cbn; lia. Qed.

Lemma serving_decreases : forall (s : @state X) a s', serving a -> step s a = Some s' -> todo s' < todo s.
Proof.
  intros [q w cs log] a s' Ha H. unfold todo. destruct a as [k| | |r| |ok|ok| |c|c]; cbn [step serving] in *; try contradiction.
  - destruct w; try discriminate. destruct q as [|[k c] q]; [discriminate|]. injection H as <-. cbn [st_queue st_worker st_calls stage length]. lia.
  - destruct w as [|src| | | | |]; try discriminate. pose proof (stage_after src true). pose proof (stage_after src false).
    destruct r as [[|m ms]|]; injection H as <-; cbn [st_queue st_worker st_calls stage length]; lia.
  - destruct w; try discriminate. injection H as <-. cbn [st_queue st_worker st_calls stage]. lia.
  - destruct w as [| | |src| | |]; try discriminate. injection H as <-. cbn [st_queue st_worker st_calls stage]. pose proof (stage_after src ok). lia.
  - destruct w; try discriminate. injection H as <-. cbn [st_queue st_worker st_calls stage]. lia.
  - destruct w as [| | | | |[|] c ok|]; try discriminate; injection H as <-; cbn [st_queue st_worker st_calls stage length]; rewrite count_answer; lia.
  - destruct (nth_error cs c) as [[k o|]|] eqn:E; [|destruct w; discriminate|destruct w; discriminate].
    assert (Es : exists b, s' = mk q w (set_nth c Over cs) (log ++ [EReturn k c b])).
    { destruct o as [ok|]; [exists ok; destruct w; congruence|exists false; destruct w; congruence]. }
    destruct Es as [b ->]. cbn [st_queue st_worker st_calls]. pose proof (count_set cs c _ E eq_refl). lia.
Qed.
Lemma serving_enabled : forall (s : @state X) c k o, reach s -> nth_error (st_calls s) c = Some (Waiting k o) ->
  exists a s', serving a /\ step s a = Some s'.
Proof.
  intros s c k o Hr E. pose proof (cinv_inv s Hr) as Hc. destruct s as [q w cs log]. cbn [st_calls] in E.
  destruct Hc as (_&_&_&H4&_).
  destruct o as [ok|].
  - exists (AReturn c). cbn [step]. rewrite E. destruct w; eexists; (split; [exact I|reflexivity]).
  - destruct w as [|src|src ms|src|c0 ok|k0 c0 ok|].
    + destruct (H4 c k E) as [Hin|[?|?]]; try discriminate. destruct q as [|[k1 c1] q]; [destruct Hin|].
      exists ATake. eexists. split; [exact I|reflexivity].
    + exists (ACollect None). eexists. split; [exact I|reflexivity].
    + exists AExport. eexists. split; [exact I|reflexivity].
    + exists (AExported true). eexists. split; [exact I|reflexivity].
    + exists (AShutExporter true). eexists. split; [exact I|reflexivity].
    + exists AAnswer. destruct k0; eexists; (split; [exact I|reflexivity]).
    + exists (AReturn c). cbn [step]. rewrite E. eexists; (split; [exact I|reflexivity]).
Qed.
End progress.

(** C57: no flush or shutdown hangs: from any reachable state the work asked for so far
    takes at most [todo s] steps, whatever the outcomes of collections and exports, and
    when it is finished no call is waiting any more. *)
Theorem C57_no_call_stuck : forall X acts0 (s : @state X), run init acts0 = Some s ->
  forall acts s', Forall serving acts -> run s acts = Some s' ->
  length acts <= todo s /\
  ((forall a, serving a -> step s' a = None) -> Forall (fun c => c = Over) (st_calls s')).
Proof.
  intros X acts0 s H0 acts s' Ha Hr. split.
  - clear H0. revert s Hr Ha. induction acts as [|a acts IH]; intros s Hr Ha; [cbn; lia|].
    cbn [run] in Hr. destruct (step s a) as [s1|] eqn:Es; [|discriminate]. inversion Ha as [|x y Hx Hy]; subst.
    specialize (IH s1 Hr Hy). pose proof (serving_decreases _ _ _ Hx Es). cbn [length]. lia.
  - intros Hstuck. apply Forall_forall. intros x Hx. apply In_nth_error in Hx. destruct Hx as [c Hc].
    destruct x as [k o|]; [|reflexivity]. exfalso.
    assert (Hreach : reach s') by (exists (acts0 ++ acts); rewrite run_app, H0; exact Hr).
    destruct (serving_enabled s' c k o Hreach Hc) as (a & s2 & Hsa & Hst). rewrite (Hstuck a Hsa) in Hst. discriminate.
Qed.
Print Assumptions C57_no_call_stuck.

(** A tick with data, a flush with nothing to report, a second flush queued behind a
    shutdown whose final export fails. *)
Definition ex_acts : list (@action nat) :=
  [ATimeout; ACollect (Some [7]); AExport; ACall KFlush; AExported true;
   ATake; ACollect (Some []); ACall KShutdown; ACall KFlush; AAnswer; AReturn 0;
   ATake; ACollect (Some [8; 9]); AExport; AExported false; AShutExporter true; AAnswer;
   AReturn 1; AReturn 2; ACall KFlush].
Example C57_nonvacuous : match run init ex_acts with
  | Some s => st_log s =
     [ECollect Timer (Some [7]); EExportBegin [7]; ECall KFlush 0; EExportEnd true;
      ECollect (Call KFlush 0) (Some []); ECall KShutdown 1; ECall KFlush 2; EAnswer 0 true; EReturn KFlush 0 true;
      ECollect (Call KShutdown 1) (Some [8; 9]); EExportBegin [8; 9]; EExportEnd false; EExporterShutdown true;
      EAnswer 1 false; EReturn KShutdown 1 false; EReturn KFlush 2 false; ECall KFlush 3; EReturn KFlush 3 false]
  | None => False end.
Proof. reflexivity. Qed.
(** A shutdown that gave up after its five seconds does not stop a later export. *)
Example C57_timeout_still_exports : match run init [ACall KShutdown; ATake; @ACollect nat (Some [1]); AGiveUp 0; AExport; AExported true] with
  | Some s => st_log s = [ECall KShutdown 0; ECollect (Call KShutdown 0) (Some [1]); EReturn KShutdown 0 false; EExportBegin [1]; EExportEnd true]
  | None => False end.
Proof. reflexivity. Qed.
