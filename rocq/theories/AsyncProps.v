(** C66. *)
From Coq Require Import List Bool Arith Lia.
From Verif Require Import ProviderModel ProviderProps AsyncModel.
Import ListNotations.

Section spec.
Context {R : Type}.
Notation event := (@event R).
(** The records taken in, the batches handed to the exporter and the calls made, in order. *)
Definition accepted (log : list event) : list R := flat_map (fun e => match e with EEmit r true => [r] | _ => [] end) log.
Definition refused (log : list event) : list R := flat_map (fun e => match e with EEmit r false => [r] | _ => [] end) log.
Definition exported (log : list event) : list (list R) := flat_map (fun e => match e with EExportBegin b => [b] | _ => [] end) log.
Definition called (log : list event) : list nat := flat_map (fun e => match e with ECall _ c => [c] | _ => [] end) log.
Definition prefix {A} (l l' : list A) : Prop := exists r, l' = l ++ r.

(** What the worker task does to the outside, and in which portions. *)
Definition by_worker (e : event) : bool := match e with EEmit _ _ | ECall _ _ | EReturn _ _ _ => false | _ => true end.
(** One export, or nothing when there is nothing to export; the flag says how it went. *)
Inductive pass (size : nat -> Prop) : bool -> list event -> Prop :=
| pass_empty : pass size true []
| pass_export b ok : size (length b) -> pass size ok [EExportBegin b; EExportEnd ok].
Inductive cycle (maxb : nat) (spans : bool) : source -> list event -> Prop :=
| cycle_full b ok : length b = maxb -> cycle maxb spans Full [EExportBegin b; EExportEnd ok]
| cycle_tick ok l : pass (fun n => 0 < n < maxb) ok l -> cycle maxb spans Timer l
| cycle_flush c ok l : pass (fun n => 0 < n < maxb) ok l -> cycle maxb spans (Call KFlush c) (l ++ [EAnswer c ok])
| cycle_shutdown c ok l : pass (fun n => 0 < n < maxb) ok l ->
    cycle maxb spans (Call KShutdown c) (l ++ if spans then [EAnswer c ok; EExporterShutdown] else [EExporterShutdown; EAnswer c ok]).
Definition is_shutdown (src : source) : bool := match src with Call KShutdown _ => true | _ => false end.
End spec.

Section proofs.
Context {R : Type} (sampled : R -> bool) (cap maxb : nat) (spans : bool).
Notation event := (@event R). Notation state := (@state R). Notation step := (@step R sampled cap maxb spans). Notation run := (@run R sampled cap maxb spans).
Notation after_export := (after_export spans).
Definition reach (s : state) (log : list event) : Prop := exists acts, run init acts = Some (s, log).

Lemma run_app : forall acts acts' (s : state), run s (acts ++ acts') =
  match run s acts with Some (s1, es) => match run s1 acts' with Some (s2, es') => Some (s2, es ++ es') | None => None end | None => None end.
Proof.
  induction acts as [|a acts IH]; intros acts' s; cbn [AsyncModel.run app].
  - destruct (run s acts') as [[? ?]|]; reflexivity.
  - destruct (step s a) as [[s1 es]|]; [|reflexivity]. rewrite IH. destruct (run s1 acts) as [[s2 es']|]; [|reflexivity].
    destruct (run s2 acts') as [[? ?]|]; [|reflexivity]. now rewrite app_assoc.
Qed.
Lemma run_one : forall s a, run s [a] = step s a.
Proof. intros. cbn [AsyncModel.run]. destruct (step s a) as [[? ?]|]; [rewrite app_nil_r|]; reflexivity. Qed.

(** The transitions, one by one. *)
Inductive tr : state -> state -> list event -> Prop :=
| t_emit q buf w cs d r : sampled r = true -> w <> WExited -> length q < cap -> tr (mk q buf w cs d) (mk (q ++ [MRec r]) buf w cs d) [EEmit r true]
| t_drop q buf w cs d r : sampled r = true -> w = WExited \/ cap <= length q -> tr (mk q buf w cs d) (mk q buf w cs (S d)) [EEmit r false]
| t_skip s : tr s s []
| t_call q buf w cs d k : w <> WExited -> length q < cap -> tr (mk q buf w cs d) (mk (q ++ [MCall k (length cs)]) buf w (cs ++ [Waiting k None]) d) [ECall k (length cs)]
| t_reject q buf w cs d k : w = WExited \/ cap <= length q -> tr (mk q buf w cs d) (mk q buf w (cs ++ [Over]) d) [ECall k (length cs); EReturn k (length cs) false]
| t_take q buf cs d r : length buf + 1 <> maxb -> tr (mk (MRec r :: q) buf WIdle cs d) (mk q (buf ++ [r]) WIdle cs d) []
| t_full q buf cs d r : length buf + 1 = maxb -> tr (mk (MRec r :: q) buf WIdle cs d) (mk q [] (WExporting Full) cs d) [EExportBegin (buf ++ [r])]
| t_empty q cs d k c : tr (mk (MCall k c :: q) [] WIdle cs d) (mk q [] (after_export (Call k c) true) cs d) []
| t_flush q buf cs d k c : buf <> [] -> tr (mk (MCall k c :: q) buf WIdle cs d) (mk q [] (WExporting (Call k c)) cs d) [EExportBegin buf]
| t_tick q buf cs d : buf <> [] -> tr (mk q buf WIdle cs d) (mk q [] (WExporting Timer) cs d) [EExportBegin buf]
| t_end q buf cs d src ok : tr (mk q buf (WExporting src) cs d) (mk q buf (after_export src ok) cs d) [EExportEnd ok]
| t_answer q buf cs d c ok : tr (mk q buf (WAnswer KFlush c ok) cs d) (mk q buf WIdle (set_answer c ok cs) d) [EAnswer c ok]
| t_down q buf cs d c ok : spans = true -> tr (mk q buf (WAnswer KShutdown c ok) cs d) (mk q buf (WShut None) (set_answer c ok cs) d) [EAnswer c ok]
| t_exit q buf cs d c ok : spans = false -> tr (mk q buf (WAnswer KShutdown c ok) cs d) (mk [] buf WExited (set_answer c ok cs) d) [EAnswer c ok]
| t_shut q buf cs d c ok : tr (mk q buf (WShut (Some (c, ok))) cs d) (mk q buf (WAnswer KShutdown c ok) cs d) [EExporterShutdown]
| t_shutexit q buf cs d : tr (mk q buf (WShut None) cs d) (mk [] buf WExited cs d) [EExporterShutdown]
| t_return q buf w cs d c k ok : nth_error cs c = Some (Waiting k (Some ok)) -> tr (mk q buf w cs d) (mk q buf w (set_nth c Over cs) d) [EReturn k c ok]
| t_gone q buf cs d c k : nth_error cs c = Some (Waiting k None) -> tr (mk q buf WExited cs d) (mk q buf WExited (set_nth c Over cs) d) [EReturn k c false].

Lemma can_send_spec : forall q buf w cs d, if can_send cap (@mk R q buf w cs d) then w <> WExited /\ length q < cap else w = WExited \/ cap <= length q.
Proof.
  intros. unfold can_send. cbn [st_worker st_queue]. destruct w; try (destruct (Nat.ltb_spec (length q) cap); [split; [discriminate|assumption]|right; assumption]).
  now left.
Qed.
Lemma step_tr : forall s a s' es, step s a = Some (s', es) -> tr s s' es.
Proof.
  intros [q buf w cs d] a s' es H. destruct a as [r|k| | |ok| | |c]; cbn [AsyncModel.step] in H.
  - destruct (sampled r) eqn:Es; [|injection H as <- <-; constructor].
    pose proof (can_send_spec q buf w cs d) as Hc. destruct (can_send _ _); injection H as <- <-; constructor; tauto.
  - pose proof (can_send_spec q buf w cs d) as Hc. destruct (can_send _ _); injection H as <- <-; constructor; tauto.
  - destruct w; try discriminate. destruct q as [|[r|k c] q]; [discriminate| |].
    + rewrite app_length in H. cbn [length] in H. destruct (Nat.eqb_spec (length buf + 1) maxb) as [E|E].
      * assert (Eb : export spans q (buf ++ [r]) Full cs d = (mk q [] (WExporting Full) cs d, [EExportBegin (buf ++ [r])])) by (destruct buf; reflexivity).
        rewrite Eb in H. injection H as <- <-. now constructor.
      * injection H as <- <-. now constructor.
    + destruct buf as [|b buf]; injection H as <- <-; constructor. discriminate.
  - destruct w; try discriminate. destruct buf as [|b buf]; injection H as <- <-; [apply t_skip|constructor; discriminate].
  - destruct w; try discriminate. injection H as <- <-. constructor.
  - destruct w as [| |[|] c ok| |]; try discriminate; [injection H as <- <-; constructor|].
    destruct spans eqn:E; injection H as <- <-; constructor; exact E.
  - destruct w as [| | |[[c ok]|]|]; try discriminate; injection H as <- <-; constructor.
  - destruct (nth_error cs c) as [[k [ok|]|]|] eqn:E; try (destruct w; discriminate).
    + assert (H' : Some (mk q buf w (set_nth c Over cs) d, [EReturn k c ok]) = Some (s', es)) by (destruct w; exact H).
      injection H' as <- <-. now constructor.
    + destruct w; try discriminate. injection H as <- <-. now constructor.
Qed.
Lemma reach_ind : forall P : state -> list event -> Prop, P init [] ->
  (forall s log s' es, reach s log -> P s log -> tr s s' es -> P s' (log ++ es)) -> forall s log, reach s log -> P s log.
Proof.
  intros P H0 Hs s log [acts H]. revert s log H. induction acts as [|a acts IH] using rev_ind; intros s log H.
  - injection H as <- <-. exact H0.
  - rewrite run_app in H. destruct (run init acts) as [[s0 l0]|] eqn:E; [|discriminate]. rewrite run_one in H.
    destruct (step s0 a) as [[s1 es]|] eqn:Es; [|discriminate]. injection H as <- <-.
    eapply Hs; [exists acts; exact E|apply IH; reflexivity|eapply step_tr; exact Es].
Qed.

Lemma accepted_app : forall l l' : list event, accepted (l ++ l') = accepted l ++ accepted l'.
Proof. intros. apply flat_map_app. Qed.
Lemma exported_app : forall l l' : list event, exported (l ++ l') = exported l ++ exported l'.
Proof. intros. apply flat_map_app. Qed.
Lemma called_app : forall l l' : list event, called (l ++ l') = called l ++ called l'.
Proof. intros. apply flat_map_app. Qed.
Lemma refused_app : forall l l' : list event, refused (l ++ l') = refused l ++ refused l'.
Proof. intros. apply flat_map_app. Qed.
Lemma set_answer_length : forall c ok cs, length (set_answer c ok cs) = length cs.
Proof. intros. unfold set_answer. destruct (nth_error cs c) as [[k ?|]|]; try reflexivity. apply set_nth_length. Qed.
Lemma set_answer_nth : forall c ok cs i, nth_error (set_answer c ok cs) i =
  if Nat.eqb c i then match nth_error cs i with Some (Waiting k _) => Some (Waiting k (Some ok)) | x => x end else nth_error cs i.
Proof.
  intros c ok cs i. unfold set_answer. destruct (Nat.eqb_spec c i) as [-> |Hn].
  - destruct (nth_error cs i) as [[k o|]|] eqn:E; try exact E. rewrite nth_set_nth, Nat.eqb_refl, E. reflexivity.
  - destruct (nth_error cs c) as [[k o|]|] eqn:E; try reflexivity. rewrite nth_set_nth. apply Nat.eqb_neq in Hn. now rewrite Hn.
Qed.

(** ** Records *)
Definition recs (q : list (@msg R)) : list R := flat_map (fun m => match m with MRec r => [r] | _ => [] end) q.
Lemma recs_app : forall q q', recs (q ++ q') = recs q ++ recs q'.
Proof. intros. apply flat_map_app. Qed.

Definition data (s : state) (log : list event) : Prop :=
  (st_worker s <> WExited -> accepted log = concat (exported log) ++ st_buf s ++ recs (st_queue s)) /\
  (st_worker s <> WIdle -> st_buf s = []) /\
  prefix (concat (exported log)) (accepted log) /\
  length (st_queue s) <= cap /\ (0 < maxb -> length (st_buf s) < maxb) /\
  length (refused log) = st_dropped s /\
  Forall (fun r => sampled r = true) (accepted log) /\
  called log = seq 0 (length (st_calls s)).

Lemma data_inv : forall s log, reach s log -> data s log.
Proof.
  apply reach_ind.
  - unfold data, prefix. cbn. repeat split; auto with arith; try lia. exists []. reflexivity.
  - intros s log s' es Hr (H1&H2&H3&H4&H5&H6&H7&H8) Ht. unfold data.
    rewrite accepted_app, exported_app, refused_app, called_app, concat_app.
    destruct Ht; cbn [st_queue st_buf st_worker st_calls st_dropped] in *;
      try rewrite set_answer_length; try rewrite set_nth_length;
      cbn [accepted exported refused called flat_map app concat length]; rewrite ?app_nil_r, ?app_length; cbn [length].
    + rewrite recs_app. cbn [recs flat_map app].
      split; [intros Hw; rewrite (H1 Hw), <- !app_assoc; reflexivity|]. split; [assumption|].
      split; [destruct H3 as [p E3]; rewrite E3; exists (p ++ [r]); now rewrite app_assoc|]. split; [lia|]. split; [assumption|]. split; [lia|]. split; [apply Forall_app; auto|assumption].
    + repeat (split; [assumption|]). split; [lia|]. split; assumption.
    + repeat (split; [assumption|]). assumption.
    + rewrite recs_app. cbn [recs flat_map app]. rewrite app_nil_r. repeat (split; [assumption|]).
      split; [lia|]. repeat (split; [assumption|]). rewrite H8, seq_app. reflexivity.
    + repeat (split; [assumption|]). rewrite H8, seq_app. reflexivity.
    + split; [intros _; rewrite H1 by discriminate; cbn [recs flat_map app]; rewrite <- !app_assoc; reflexivity|]. split; [congruence|]. split; [assumption|].
      cbn [length] in H4. split; [lia|]. split; [intros; lia|]. repeat (split; [assumption|]). assumption.
    + assert (E : accepted log = (concat (exported log) ++ buf ++ [r]) ++ recs q).
      { rewrite H1 by discriminate. cbn [recs flat_map app]. rewrite <- !app_assoc. reflexivity. }
      split; [intros _; exact E|]. split; [reflexivity|]. split; [exists (recs q); exact E|]. cbn [length] in H4. split; [lia|]. split; [intros; cbn; lia|]. repeat (split; [assumption|]). assumption.
    + split; [intros _; rewrite H1 by discriminate; reflexivity|]. split; [reflexivity|]. cbn [length] in H4. split; [assumption|]. split; [lia|]. repeat (split; [assumption|]). assumption.
    + assert (E : accepted log = (concat (exported log) ++ buf) ++ recs q).
      { rewrite H1 by discriminate. cbn [recs flat_map app]. rewrite <- !app_assoc. reflexivity. }
      split; [intros _; exact E|]. split; [reflexivity|]. split; [exists (recs q); exact E|]. cbn [length] in H4. split; [lia|]. split; [intros; cbn; lia|]. repeat (split; [assumption|]). assumption.
    + assert (E : accepted log = (concat (exported log) ++ buf) ++ recs q).
      { rewrite H1 by discriminate. rewrite <- !app_assoc. reflexivity. }
      split; [intros _; exact E|]. split; [reflexivity|]. split; [exists (recs q); exact E|]. split; [lia|]. split; [intros; cbn; lia|]. repeat (split; [assumption|]). assumption.
    + assert (Hb : buf = []) by (apply H2; discriminate). split; [intros _; apply H1; discriminate|]. split; [auto|]. repeat (split; [assumption|]). assumption.
    + assert (Hb : buf = []) by (apply H2; discriminate). split; [intros _; apply H1; discriminate|]. split; [auto|]. repeat (split; [assumption|]). assumption.
    + assert (Hb : buf = []) by (apply H2; discriminate). split; [intros _; apply H1; discriminate|]. split; [auto|]. repeat (split; [assumption|]). assumption.
    + assert (Hb : buf = []) by (apply H2; discriminate). split; [congruence|]. split; [auto|]. split; [assumption|]. split; [cbn; lia|]. repeat (split; [assumption|]). assumption.
    + assert (Hb : buf = []) by (apply H2; discriminate). split; [intros _; apply H1; discriminate|]. split; [auto|]. repeat (split; [assumption|]). assumption.
    + assert (Hb : buf = []) by (apply H2; discriminate). split; [congruence|]. split; [auto|]. split; [assumption|]. split; [cbn; lia|]. repeat (split; [assumption|]). assumption.
    + repeat (split; [assumption|]). assumption.
    + repeat (split; [assumption|]). assumption.
Qed.

(** ** Calls *)
Definition src_of (w : worker) : option source :=
  match w with
  | WIdle | WExited | WShut None => None
  | WExporting s => Some s
  | WAnswer k c _ => Some (Call k c)
  | WShut (Some (c, _)) => Some (Call KShutdown c)
  end.
(** Call [c] was made after [a], within [log]. *)
Definition since (log : list event) (k : kind) (c : nat) (a : list event) : Prop := exists b, log = a ++ ECall k c :: b.
Definition cov (log a : list event) : Prop := prefix (accepted a) (concat (exported log)).
Definition done (log : list event) (c : nat) : Prop := exists k a, since log k c a /\ cov log a.

Lemma since_more : forall log es k c a, since log k c a -> since (log ++ es) k c a.
Proof. intros log es k c a [b ->]. exists (b ++ es). now rewrite <- app_assoc. Qed.
Lemma cov_more : forall log es a, cov log a -> cov (log ++ es) a.
Proof. intros log es a [r H]. exists (r ++ concat (exported es)). now rewrite exported_app, concat_app, H, app_assoc. Qed.
Lemma last_split {A} : forall (log l l' : list A) x y, log ++ [x] = l ++ y :: l' ->
  (l' = [] /\ x = y /\ log = l) \/ (exists l2, l' = l2 ++ [x] /\ log = l ++ y :: l2).
Proof.
  intros log l l' x y H. destruct l' as [|z l'] using rev_ind.
  - apply app_inj_tail in H. left. tauto.
  - clear IHl'. rewrite app_comm_cons, app_assoc in H. apply app_inj_tail in H. destruct H as [H ->]. right. exists l'. auto.
Qed.
(** A statement about every event and what came before it. *)
Definition always (P : list event -> event -> Prop) (log : list event) : Prop := forall l e l', log = l ++ e :: l' -> P l e.
Lemma always_snoc : forall P log e, always P log -> P log e -> always P (log ++ [e]).
Proof. intros P log e H He l x l' E. apply last_split in E. destruct E as [(_ & <- & <-)|(l2 & _ & E)]; [exact He|eapply H; exact E]. Qed.

Definition justified (l : list event) (e : event) : Prop :=
  match e with
  | EAnswer c ok => done l c /\ (spans = false -> forall k, In (ECall k c) l -> k = KShutdown -> In EExporterShutdown l)
  | EReturn k c true => In (EAnswer c true) l
  | EReturn k c false => In (EAnswer c false) l \/ In EExporterShutdown l \/ (exists l', l = l' ++ [ECall k c])
  | _ => True
  end.

Definition calls_inv (s : state) (log : list event) : Prop :=
  let '(mk q buf w cs d) := s in
  (forall q1 k c q2, q = q1 ++ MCall k c :: q2 -> exists a, since log k c a /\ accepted a = concat (exported log) ++ buf ++ recs q1) /\
  (forall k c, src_of w = Some (Call k c) -> exists a, since log k c a /\ cov log a) /\
  (forall c k ok, nth_error cs c = Some (Waiting k (Some ok)) -> In (EAnswer c ok) log) /\
  (forall c k, nth_error cs c = Some (Waiting k None) -> In (MCall k c) q \/ src_of w = Some (Call k c) \/ w = WExited) /\
  (w = WExited \/ (exists c ok, w = WAnswer KShutdown c ok /\ spans = false) -> In EExporterShutdown log) /\
  (forall k c, In (ECall k c) log -> forall k', In (ECall k' c) log -> k = k') /\
  always justified log.

Lemma called_in : forall (log : list event) k c, In (ECall k c) log -> In c (called log).
Proof. intros log k c H. unfold called. apply in_flat_map. exists (ECall k c). split; [exact H|left; reflexivity]. Qed.
Lemma snoc_inj_mid {A} : forall (q q1 q2 : list A) x y, q ++ [x] = q1 ++ y :: q2 ->
  (q2 = [] /\ x = y /\ q = q1) \/ (exists q3, q2 = q3 ++ [x] /\ q = q1 ++ y :: q3).
Proof. apply @last_split. Qed.
Lemma since_in : forall log k c a, since log k c a -> In (ECall k c) log.
Proof. intros log k c a [b ->]. apply in_or_app. right. now left. Qed.

Lemma nth_snoc_inv {A} : forall (l : list A) x i y, nth_error (l ++ [x]) i = Some y -> nth_error l i = Some y \/ (i = length l /\ y = x).
Proof.
  intros l x i y E. destruct (Nat.lt_ge_cases i (length l)); [rewrite nth_error_app1 in E; auto|]. rewrite nth_error_app2 in E by assumption.
  destruct (i - length l) as [|n] eqn:En; [right; split; [lia|cbn in E; congruence]|]. cbn in E. destruct n; discriminate.
Qed.
Lemma nth_over : forall cs c i k o, nth_error (set_nth c Over cs) i = Some (Waiting k o) -> nth_error cs i = Some (Waiting k o).
Proof. intros cs c i k o E. rewrite nth_set_nth in E. destruct (Nat.eqb c i); [|exact E]. destruct (nth_error cs i); discriminate. Qed.
(** An event that adds nothing to the exports, the calls and the justified events. *)
Lemma one_call_more : forall (log : list event) es, called es = [] ->
  (forall k c, In (ECall k c) log -> forall k', In (ECall k' c) log -> k = k') ->
  forall k c, In (ECall k c) (log ++ es) -> forall k', In (ECall k' c) (log ++ es) -> k = k'.
Proof.
  intros log es Hes H k c Hin k' Hin'. assert (Hn : forall k0, ~ In (ECall k0 c) es) by (intros k0 Hc; apply called_in in Hc; rewrite Hes in Hc; exact Hc).
  apply in_app_or in Hin. apply in_app_or in Hin'. destruct Hin as [Hin|Hin]; [|destruct (Hn _ Hin)]. destruct Hin' as [Hin'|Hin']; [|destruct (Hn _ Hin')]. eauto.
Qed.
Lemma one_call_new : forall (log : list event) n k0, called log = seq 0 n ->
  (forall k c, In (ECall k c) log -> forall k', In (ECall k' c) log -> k = k') ->
  forall k c, In (ECall k c) (log ++ [ECall k0 n]) -> forall k', In (ECall k' c) (log ++ [ECall k0 n]) -> k = k'.
Proof.
  intros log n k0 Hn H k c Hin k' Hin'. assert (Hlt : forall k c, In (ECall k c) log -> c < n).
  { intros k1 c1 Hc. apply called_in in Hc. rewrite Hn in Hc. apply in_seq in Hc. lia. }
  apply in_app_or in Hin. apply in_app_or in Hin'. destruct Hin as [Hin|[Hin|[]]], Hin' as [Hin'|[Hin'|[]]].
  - eauto.
  - injection Hin' as <- <-. specialize (Hlt _ _ Hin). lia.
  - injection Hin as <- <-. specialize (Hlt _ _ Hin'). lia.
  - congruence.
Qed.
Lemma export_cov : forall (log : list event) buf a q1, accepted a = concat (exported log) ++ buf ++ recs q1 ->
  accepted a = concat (exported (log ++ [EExportBegin buf])) ++ [] ++ recs q1.
Proof. intros log buf a q1 E. rewrite exported_app, concat_app. cbn [exported flat_map app concat]. rewrite app_nil_r, <- app_assoc. exact E. Qed.
Lemma quiet : forall (log es : list event), exported es = [] -> concat (exported (log ++ es)) = concat (exported log).
Proof. intros log es E. now rewrite exported_app, E, app_nil_r. Qed.
Lemma after_src : forall src ok k c, src_of (after_export src ok) = Some (Call k c) -> src = Call k c.
Proof. intros [| |[|] c0] ok k c E; cbn in E; try discriminate; [congruence|]. destruct spans; cbn in E; congruence. Qed.
Lemma after_src' : forall k c ok, src_of (after_export (Call k c) ok) = Some (Call k c).
Proof. intros [|] c ok; cbn; [reflexivity|]. destruct spans; reflexivity. Qed.
Lemma after_exit : forall src ok, after_export src ok = WExited \/ (exists c ok', after_export src ok = WAnswer KShutdown c ok' /\ spans = false) -> False.
Proof. intros [| |[|] c0] ok [E|(c & ok' & E & Es)]; cbn in E; try discriminate; destruct spans; discriminate. Qed.

Lemma calls_step : forall s log s' es, data s log -> calls_inv s log -> tr s s' es -> calls_inv s' (log ++ es).
Proof.
  intros s log s' es Hd H Ht. destruct Hd as (D1&D2&D3&D4&D5&D6&D7&D8).
  assert (HR : forall e, (forall k c o, e <> EReturn k c o) -> (forall c o, e <> EAnswer c o) -> justified log e) by (intros e E1 E2; destruct e; try exact I; exfalso; [eapply E2|eapply E1]; reflexivity).
  assert (HR' : forall e, (forall k c o, e <> EReturn k c o) -> (forall c o, e <> EAnswer c o) -> always justified log -> always justified (log ++ [e])).
  { intros e E1 E2 Ha. apply always_snoc; auto. }
  destruct Ht; cbn [st_queue st_buf st_worker st_calls st_dropped] in D1, D2, D3, D4, D5, D6, D7, D8.
  - (* emit *) destruct H as (G1&G2&G3&G4&G5&G6&G7). unfold calls_inv.
    split. { intros q1 k c q2 E. apply snoc_inj_mid in E. destruct E as [(_ & E & _)|(q3 & _ & E)]; [discriminate|].
             destruct (G1 _ _ _ _ E) as (a & Ha & Hb). exists a. split; [now apply since_more|]. now rewrite quiet. }
    split. { intros k c E. destruct (G2 _ _ E) as (a & Ha & Hb). exists a. split; [now apply since_more|now apply cov_more]. }
    split; [intros; apply in_or_app; left; eauto|].
    split; [intros c k E; destruct (G4 _ _ E) as [?|?]; [left; apply in_or_app; auto|auto]|].
    split; [intros; apply in_or_app; left; auto|].
    split; [apply one_call_more; auto|]. apply HR'; [discriminate|discriminate|assumption].
  - destruct H as (G1&G2&G3&G4&G5&G6&G7). unfold calls_inv.
    split. { intros q1 k c q2 E. destruct (G1 _ _ _ _ E) as (a & Ha & Hb). exists a. split; [now apply since_more|]. now rewrite quiet. }
    split. { intros k c E. destruct (G2 _ _ E) as (a & Ha & Hb). exists a. split; [now apply since_more|now apply cov_more]. }
    split; [intros; apply in_or_app; left; eauto|]. split; [assumption|].
    split; [intros; apply in_or_app; left; auto|].
    split; [apply one_call_more; auto|]. apply HR'; [discriminate|discriminate|assumption].
  - rewrite app_nil_r. exact H.
  - (* call *) destruct H as (G1&G2&G3&G4&G5&G6&G7). unfold calls_inv.
    split. { intros q1 k0 c q2 E. apply snoc_inj_mid in E. destruct E as [(_ & E & <-)|(q3 & _ & E)].
             - injection E as <- <-. exists log. split; [exists []; reflexivity|]. rewrite quiet by reflexivity. auto.
             - destruct (G1 _ _ _ _ E) as (a & Ha & Hb). exists a. split; [now apply since_more|]. now rewrite quiet. }
    split. { intros k0 c E. destruct (G2 _ _ E) as (a & Ha & Hb). exists a. split; [now apply since_more|now apply cov_more]. }
    split. { intros c k0 ok E. apply nth_snoc_inv in E. destruct E as [E|[_ E]]; [|discriminate]. apply in_or_app; left; eauto. }
    split. { intros c k0 E. apply nth_snoc_inv in E. destruct E as [E|[-> E]]; [destruct (G4 _ _ E) as [?|?]; [left; apply in_or_app; auto|auto]|].
             injection E as ->. left. apply in_or_app. right. left. reflexivity. }
    split; [intros; apply in_or_app; left; auto|].
    split; [apply one_call_new; auto|]. apply HR'; [discriminate|discriminate|assumption].
  - (* reject *) destruct H as (G1&G2&G3&G4&G5&G6&G7). unfold calls_inv.
    split. { intros q1 k0 c q2 E. destruct (G1 _ _ _ _ E) as (a & Ha & Hb). exists a. split; [now apply since_more|]. now rewrite quiet. }
    split. { intros k0 c E. destruct (G2 _ _ E) as (a & Ha & Hb). exists a. split; [now apply since_more|now apply cov_more]. }
    split. { intros c k0 ok E. apply nth_snoc_inv in E. destruct E as [E|[_ E]]; [|discriminate]. apply in_or_app; left; eauto. }
    split. { intros c k0 E. apply nth_snoc_inv in E. destruct E as [E|[-> E]]; [auto|discriminate]. }
    split; [intros; apply in_or_app; left; auto|].
    change (log ++ [ECall k (length cs); EReturn k (length cs) false]) with (log ++ ([ECall k (length cs)] ++ [EReturn k (length cs) false])). rewrite app_assoc.
    split; [apply one_call_more; [reflexivity|]; apply one_call_new; auto|].
    apply always_snoc; [apply HR'; [discriminate|discriminate|assumption]|]. cbn. right. right. exists log. reflexivity.
  - (* take *) rewrite app_nil_r. destruct H as (G1&G2&G3&G4&G5&G6&G7). unfold calls_inv.
    split. { intros q1 k c q2 E. destruct (G1 (MRec r :: q1) k c q2) as (a & Ha & Hb); [now rewrite E|]. exists a. split; [assumption|].
             rewrite Hb. cbn [recs flat_map app]. rewrite <- !app_assoc. reflexivity. }
    split; [assumption|]. split; [assumption|].
    split. { intros c k E. destruct (G4 _ _ E) as [[Hin|Hin]|?]; [discriminate|auto|auto]. }
    split; [assumption|]. split; assumption.
  - (* full *) destruct H as (G1&G2&G3&G4&G5&G6&G7). unfold calls_inv.
    split. { intros q1 k c q2 E. destruct (G1 (MRec r :: q1) k c q2) as (a & Ha & Hb); [now rewrite E|]. exists a. split; [now apply since_more|].
             apply export_cov. rewrite Hb. cbn [recs flat_map app]. rewrite <- !app_assoc. reflexivity. }
    split; [discriminate|]. split; [intros; apply in_or_app; left; eauto|].
    split. { intros c k E. destruct (G4 _ _ E) as [[Hin|Hin]|[Hw|Hw]]; try discriminate. auto. }
    split; [intros [E|(c & ok & E & _)]; discriminate|].
    split; [apply one_call_more; auto|]. apply HR'; [discriminate|discriminate|assumption].
  - (* empty *) rewrite app_nil_r. destruct H as (G1&G2&G3&G4&G5&G6&G7). unfold calls_inv.
    assert (Hk : exists a, since log k c a /\ cov log a).
    { destruct (G1 [] k c q eq_refl) as (a & Ha & Hb). exists a. split; [assumption|]. exists []. cbn in Hb. rewrite app_nil_r in *. auto. }
    split. { intros q1 k0 c0 q2 E. destruct (G1 (MCall k c :: q1) k0 c0 q2) as (a & Ha & Hb); [now rewrite E|]. exists a. auto. }
    split. { intros k0 c0 E. apply after_src in E. injection E as <- <-. exact Hk. }
    split; [assumption|].
    split. { intros c0 k0 E. destruct (G4 _ _ E) as [[Hin|Hin]|[Hw|Hw]]; try discriminate; [|auto]. injection Hin as <- <-. right. left. apply after_src'. }
    split; [intros E; destruct (after_exit _ _ E)|]. split; assumption.
  - (* flush *) destruct H as (G1&G2&G3&G4&G5&G6&G7). unfold calls_inv.
    assert (Hk : exists a, since log k c a /\ cov (log ++ [EExportBegin buf]) a).
    { destruct (G1 [] k c q eq_refl) as (a & Ha & Hb). exists a. split; [assumption|]. apply export_cov in Hb. exists []. cbn in Hb. rewrite app_nil_r in *. auto. }
    split. { intros q1 k0 c0 q2 E. destruct (G1 (MCall k c :: q1) k0 c0 q2) as (a & Ha & Hb); [now rewrite E|]. exists a. split; [now apply since_more|]. now apply export_cov. }
    split. { intros k0 c0 E. injection E as <- <-. destruct Hk as (a & Ha & Hb). exists a. split; [now apply since_more|assumption]. }
    split; [intros; apply in_or_app; left; eauto|].
    split. { intros c0 k0 E. destruct (G4 _ _ E) as [[Hin|Hin]|[Hw|Hw]]; try discriminate; [|auto]. injection Hin as <- <-. right. left. reflexivity. }
    split; [intros [E|(c1 & ok & E & _)]; discriminate|].
    split; [apply one_call_more; auto|]. apply HR'; [discriminate|discriminate|assumption].
  - (* tick *) destruct H as (G1&G2&G3&G4&G5&G6&G7). unfold calls_inv.
    split. { intros q1 k0 c0 q2 E. destruct (G1 _ _ _ _ E) as (a & Ha & Hb). exists a. split; [now apply since_more|]. now apply export_cov. }
    split; [discriminate|]. split; [intros; apply in_or_app; left; eauto|].
    split. { intros c k E. destruct (G4 _ _ E) as [Hin|[Hw|Hw]]; try discriminate. auto. }
    split; [intros [E|(c & ok & E & _)]; discriminate|].
    split; [apply one_call_more; auto|]. apply HR'; [discriminate|discriminate|assumption].
  - (* end *) destruct H as (G1&G2&G3&G4&G5&G6&G7). unfold calls_inv.
    split. { intros q1 k0 c0 q2 E. destruct (G1 _ _ _ _ E) as (a & Ha & Hb). exists a. split; [now apply since_more|]. now rewrite quiet. }
    split. { intros k c E. apply after_src in E. subst src. destruct (G2 _ _ eq_refl) as (a & Ha & Hb). exists a. split; [now apply since_more|now apply cov_more]. }
    split; [intros; apply in_or_app; left; eauto|].
    split. { intros c k E. destruct (G4 _ _ E) as [Hin|[Hw|Hw]]; try discriminate; [auto|]. cbn in Hw. injection Hw as ->. right. left. apply after_src'. }
    split; [intros E; destruct (after_exit _ _ E)|].
    split; [apply one_call_more; auto|]. apply HR'; [discriminate|discriminate|assumption].
  - (* answer *) destruct H as (G1&G2&G3&G4&G5&G6&G7). unfold calls_inv. destruct (G2 _ _ eq_refl) as (a0 & Ha0 & Hb0).
    split. { intros q1 k0 c0 q2 E. destruct (G1 _ _ _ _ E) as (a & Ha & Hb). exists a. split; [now apply since_more|]. now rewrite quiet. }
    split; [discriminate|].
    split. { intros c0 k0 o E. rewrite set_answer_nth in E. apply in_or_app. destruct (Nat.eqb_spec c c0) as [<- |Hn]; [|left; eauto].
             destruct (nth_error cs c) as [[? ?|]|]; try discriminate. injection E as <- <-. right. left. reflexivity. }
    split. { intros c0 k0 E. rewrite set_answer_nth in E. destruct (Nat.eqb_spec c c0) as [<- |Hn].
             - destruct (nth_error cs c) as [[? ?|]|]; discriminate.
             - destruct (G4 _ _ E) as [Hin|[Hw|Hw]]; [auto|cbn in Hw; congruence|discriminate]. }
    split; [intros [E|(c1 & ok1 & E & _)]; discriminate|].
    split; [apply one_call_more; auto|]. apply always_snoc; [assumption|]. cbn. split; [exists KFlush, a0; auto|].
    intros _ k Hin ->. specialize (G6 _ _ Hin _ (since_in _ _ _ _ Ha0)). discriminate.
  - destruct H as (G1&G2&G3&G4&G5&G6&G7). unfold calls_inv. destruct (G2 _ _ eq_refl) as (a0 & Ha0 & Hb0).
    split. { intros q1 k0 c0 q2 E. destruct (G1 _ _ _ _ E) as (a & Ha & Hb). exists a. split; [now apply since_more|]. now rewrite quiet. }
    split; [discriminate|].
    split. { intros c0 k0 o E. rewrite set_answer_nth in E. apply in_or_app. destruct (Nat.eqb_spec c c0) as [<- |Hn]; [|left; eauto].
             destruct (nth_error cs c) as [[? ?|]|]; try discriminate. injection E as <- <-. right. left. reflexivity. }
    split. { intros c0 k0 E. rewrite set_answer_nth in E. destruct (Nat.eqb_spec c c0) as [<- |Hn].
             - destruct (nth_error cs c) as [[? ?|]|]; discriminate.
             - destruct (G4 _ _ E) as [Hin|[Hw|Hw]]; [auto|cbn in Hw; congruence|discriminate]. }
    split; [intros [E|(c1 & ok1 & E & _)]; discriminate|].
    split; [apply one_call_more; auto|]. apply always_snoc; [assumption|]. cbn. split; [exists KShutdown, a0; auto|]. congruence.
  - destruct H as (G1&G2&G3&G4&G5&G6&G7). unfold calls_inv. destruct (G2 _ _ eq_refl) as (a0 & Ha0 & Hb0).
    assert (Hs : In EExporterShutdown log) by (apply G5; right; eauto).
    split. { intros q1 k0 c0 q2 E. destruct q1; discriminate. }
    split; [discriminate|].
    split. { intros c0 k0 o E. rewrite set_answer_nth in E. apply in_or_app. destruct (Nat.eqb_spec c c0) as [<- |Hn]; [|left; eauto].
             destruct (nth_error cs c) as [[? ?|]|]; try discriminate. injection E as <- <-. right. left. reflexivity. }
    split; [auto|]. split; [intros; apply in_or_app; auto|].
    split; [apply one_call_more; auto|]. apply always_snoc; [assumption|]. cbn. split; [exists KShutdown, a0; auto|]. auto.
  - (* shut *) destruct H as (G1&G2&G3&G4&G5&G6&G7). unfold calls_inv.
    split. { intros q1 k0 c0 q2 E. destruct (G1 _ _ _ _ E) as (a & Ha & Hb). exists a. split; [now apply since_more|]. now rewrite quiet. }
    split. { intros k0 c0 E. injection E as <- <-. destruct (G2 _ _ eq_refl) as (a & Ha & Hb). exists a. split; [now apply since_more|now apply cov_more]. }
    split; [intros; apply in_or_app; left; eauto|].
    split. { intros c0 k0 E. destruct (G4 _ _ E) as [Hin|[Hw|Hw]]; try discriminate; auto. }
    split; [intros _; apply in_or_app; right; left; reflexivity|].
    split; [apply one_call_more; auto|]. apply HR'; [discriminate|discriminate|assumption].
  - destruct H as (G1&G2&G3&G4&G5&G6&G7). unfold calls_inv.
    split. { intros q1 k0 c0 q2 E. destruct q1; discriminate. }
    split; [discriminate|]. split; [intros; apply in_or_app; left; eauto|]. split; [auto|].
    split; [intros _; apply in_or_app; right; left; reflexivity|].
    split; [apply one_call_more; auto|]. apply HR'; [discriminate|discriminate|assumption].
  - (* return *) destruct H as (G1&G2&G3&G4&G5&G6&G7). unfold calls_inv. specialize (G3 _ _ _ H0) as Ha. rename G3 into G3'.
    split. { intros q1 k0 c0 q2 E. destruct (G1 _ _ _ _ E) as (a & Ha' & Hb). exists a. split; [now apply since_more|]. now rewrite quiet. }
    split. { intros k0 c0 E. destruct (G2 _ _ E) as (a & Ha' & Hb). exists a. split; [now apply since_more|now apply cov_more]. }
    split. { intros c0 k0 o E. apply nth_over in E. apply in_or_app; left; eauto. }
    split. { intros c0 k0 E. apply nth_over in E. eauto. }
    split; [intros; apply in_or_app; left; auto|].
    split; [apply one_call_more; auto|]. apply always_snoc; [assumption|]. destruct ok; cbn; auto.
  - destruct H as (G1&G2&G3&G4&G5&G6&G7). unfold calls_inv.
    split. { intros q1 k0 c0 q2 E. destruct (G1 _ _ _ _ E) as (a & Ha & Hb). exists a. split; [now apply since_more|]. now rewrite quiet. }
    split. { intros k0 c0 E. destruct (G2 _ _ E) as (a & Ha & Hb). exists a. split; [now apply since_more|now apply cov_more]. }
    split. { intros c0 k0 o E. apply nth_over in E. apply in_or_app; left; eauto. }
    split. { intros c0 k0 E. apply nth_over in E. eauto. }
    split; [intros; apply in_or_app; left; auto|].
    split; [apply one_call_more; auto|]. apply always_snoc; [assumption|]. cbn. right. left. apply G5. auto.
Qed.
Lemma calls_ok : forall s log, reach s log -> calls_inv s log.
Proof.
  apply reach_ind.
  - unfold calls_inv, init.
    split; [intros [|] ? ? ? E; discriminate|]. split; [discriminate|]. split; [intros [|c] k ok E; discriminate|]. split; [intros [|c] k E; discriminate|].
    split; [intros [E|(c & ok & E & _)]; discriminate|]. split; [intros k c []|]. intros [|x l] e l' E; discriminate.
  - intros s log s' es Hr H Ht. eapply calls_step; [apply data_inv; exact Hr|exact H|exact Ht].
Qed.

(** ** The worker's history *)
Inductive partial : worker -> list event -> Prop :=
| part_idle : partial WIdle []
| part_exited : partial WExited []
| part_full b : length b = maxb -> partial (WExporting Full) [EExportBegin b]
| part_export src b : src <> Full -> 0 < length b < maxb -> partial (WExporting src) [EExportBegin b]
| part_flushed c ok l : pass (fun n => 0 < n < maxb) ok l -> partial (WAnswer KFlush c ok) l
| part_spans c ok l : spans = true -> pass (fun n => 0 < n < maxb) ok l -> partial (WAnswer KShutdown c ok) l
| part_answered c ok l : spans = true -> pass (fun n => 0 < n < maxb) ok l -> partial (WShut None) (l ++ [EAnswer c ok])
| part_logs c ok l : spans = false -> pass (fun n => 0 < n < maxb) ok l -> partial (WShut (Some (c, ok))) l
| part_shut c ok l : spans = false -> pass (fun n => 0 < n < maxb) ok l -> partial (WAnswer KShutdown c ok) (l ++ [EExporterShutdown]).
Definition history (s : state) (log : list event) : Prop :=
  exists cycles rest, filter by_worker log = concat (map snd cycles) ++ rest /\
    Forall (fun p => cycle maxb spans (fst p) (snd p)) cycles /\ partial (st_worker s) rest /\
    match st_worker s with
    | WExited => exists pre c l, cycles = pre ++ [(Call KShutdown c, l)] /\ forallb (fun p => negb (is_shutdown (fst p))) pre = true
    | _ => forallb (fun p => negb (is_shutdown (fst p))) cycles = true
    end.
Lemma hist_same : forall s s' log es, history s log -> st_worker s' = st_worker s -> filter by_worker es = [] -> history s' (log ++ es).
Proof. intros s s' log es (cy & rest & H) Hw He. exists cy, rest. rewrite filter_app, He, app_nil_r, Hw. exact H. Qed.
Lemma hist_more : forall q buf w cs d q' buf' w' cs' d' log e, history (mk q buf w cs d) log ->
  w <> WExited -> w' <> WExited -> by_worker e = true -> (forall rest, partial w rest -> partial w' (rest ++ [e])) -> history (mk q' buf' w' cs' d') (log ++ [e]).
Proof.
  intros q buf w cs d q' buf' w' cs' d' log e (cy & rest & H1 & H2 & H3 & H4) Hw Hw' He Hp. exists cy, (rest ++ [e]). cbn [st_worker] in *.
  rewrite filter_app. cbn [filter]. rewrite He, H1, app_assoc. split; [reflexivity|]. split; [assumption|]. split; [auto|]. destruct w, w'; congruence || assumption.
Qed.
Lemma hist_close : forall q buf w cs d q' buf' cs' d' log e src, history (mk q buf w cs d) log ->
  w <> WExited -> by_worker e = true -> is_shutdown src = false -> (forall rest, partial w rest -> cycle maxb spans src (rest ++ [e])) -> history (mk q' buf' WIdle cs' d') (log ++ [e]).
Proof.
  intros q buf w cs d q' buf' cs' d' log e src (cy & rest & H1 & H2 & H3 & H4) Hw He Hs Hp. exists (cy ++ [(src, rest ++ [e])]), []. cbn [st_worker] in *.
  rewrite filter_app. cbn [filter]. rewrite He, H1, map_app, concat_app. cbn [map snd concat]. rewrite !app_nil_r, app_assoc.
  split; [reflexivity|]. split; [apply Forall_app; split; [assumption|constructor; [cbn; auto|constructor]]|]. split; [constructor|].
  rewrite forallb_app. cbn [forallb fst]. rewrite Hs. destruct w; try congruence; rewrite H4; reflexivity.
Qed.
Lemma hist_exit : forall q buf w cs d q' buf' cs' d' log e c, history (mk q buf w cs d) log ->
  w <> WExited -> by_worker e = true -> (forall rest, partial w rest -> exists c0, cycle maxb spans (Call KShutdown c0) (rest ++ [e]) /\ (c0 = c \/ w = WShut None)) -> history (mk q' buf' WExited cs' d') (log ++ [e]).
Proof.
  intros q buf w cs d q' buf' cs' d' log e c (cy & rest & H1 & H2 & H3 & H4) Hw He Hp. cbn [st_worker] in *. destruct (Hp _ H3) as (c0 & Hc & _).
  exists (cy ++ [(Call KShutdown c0, rest ++ [e])]), []. cbn [st_worker] in *.
  rewrite filter_app. cbn [filter]. rewrite He, H1, map_app, concat_app. cbn [map snd concat]. rewrite !app_nil_r, app_assoc.
  split; [reflexivity|]. split; [apply Forall_app; split; [assumption|constructor; [cbn; auto|constructor]]|]. split; [constructor|].
  exists cy, c0, (rest ++ [e]). split; [reflexivity|]. destruct w; try congruence; exact H4.
Qed.
Lemma history_ok : 0 < maxb -> forall s log, reach s log -> history s log.
Proof.
  intros Hm. apply reach_ind.
  - exists [], []. cbn. split; [reflexivity|]. split; [constructor|]. split; [constructor|reflexivity].
  - intros s log s' es Hr H Ht. destruct (data_inv _ _ Hr) as (_&_&_&_&D5&_). destruct Ht; cbn [st_buf] in D5; specialize (D5 Hm);
      try (eapply hist_same; [exact H|reflexivity|reflexivity]).
    + eapply hist_more; [exact H|discriminate|discriminate|reflexivity|]. intros rest Hp. inversion Hp. cbn. constructor. rewrite app_length. cbn. lia.
    + rewrite app_nil_r. destruct k; cbn [AsyncModel.after_export].
      * destruct H as (cy & rest & H1 & H2 & H3 & H4). cbn [st_worker] in *. inversion H3; subst. exists cy, []. split; [assumption|]. split; [assumption|]. split; [constructor; constructor|assumption].
      * destruct H as (cy & rest & H1 & H2 & H3 & H4). cbn [st_worker] in *. inversion H3; subst. exists cy, []. split; [assumption|]. split; [assumption|]. cbn [st_worker].
        destruct spans eqn:Es; (split; [constructor; [exact Es|constructor]|assumption]).
    + eapply hist_more; [exact H|discriminate|discriminate|reflexivity|]. intros rest Hp. inversion Hp. cbn. constructor; [discriminate|]. destruct buf; [congruence|cbn in *; lia].
    + eapply hist_more; [exact H|discriminate|discriminate|reflexivity|]. intros rest Hp. inversion Hp. cbn. constructor; [discriminate|]. destruct buf; [congruence|cbn in *; lia].
    + destruct src as [| |[|] c]; cbn [AsyncModel.after_export].
      * eapply (hist_close _ _ _ _ _ _ _ _ _ _ _ Full); [exact H|discriminate|reflexivity|reflexivity|]. intros rest Hp. inversion Hp; subst; [cbn; now constructor|congruence].
      * eapply (hist_close _ _ _ _ _ _ _ _ _ _ _ Timer); [exact H|discriminate|reflexivity|reflexivity|]. intros rest Hp. inversion Hp; subst. cbn. econstructor. constructor. assumption.
      * eapply hist_more; [exact H|discriminate|discriminate|reflexivity|]. intros rest Hp. inversion Hp; subst. cbn. econstructor. constructor. assumption.
      * eapply hist_more; [exact H|discriminate|destruct spans; discriminate|reflexivity|]. intros rest Hp. inversion Hp; subst. cbn.
        destruct spans eqn:Es; (constructor; [exact Es|constructor; assumption]).
    + eapply (hist_close _ _ _ _ _ _ _ _ _ _ _ (Call KFlush c)); [exact H|discriminate|reflexivity|reflexivity|]. intros rest Hp; inversion Hp; subst; constructor; assumption.
    + eapply hist_more; [exact H|discriminate|discriminate|reflexivity|]. intros rest Hp. inversion Hp; subst; [constructor; assumption|congruence].
    + eapply hist_exit; [exact H|discriminate|reflexivity|]. intros rest Hp. exists c. split; [|left; reflexivity]. inversion Hp; subst; [congruence|].
      rewrite <- app_assoc. cbn [app].
      replace [EExporterShutdown; EAnswer c ok] with (if spans then [@EAnswer R c ok; EExporterShutdown] else [EExporterShutdown; EAnswer c ok]) by (match goal with E : spans = false |- _ => rewrite E end; reflexivity). constructor; assumption.
    + eapply hist_more; [exact H|discriminate|discriminate|reflexivity|]. intros rest Hp. inversion Hp; subst. constructor; assumption.
    + eapply (hist_exit _ _ _ _ _ _ _ _ _ _ _ 0); [exact H|discriminate|reflexivity|]. intros rest Hp. inversion Hp; subst. exists c. split; [|right; reflexivity].
      rewrite <- app_assoc. cbn [app].
      replace [EAnswer c ok; EExporterShutdown] with (if spans then [@EAnswer R c ok; EExporterShutdown] else [EExporterShutdown; EAnswer c ok]) by (match goal with E : spans = true |- _ => rewrite E end; reflexivity). constructor; assumption.
Qed.

(** ** Further invariants *)
Lemma queue_len : forall s log, reach s log -> length (st_queue s) <= length (recs (st_queue s)) + length (called log).
Proof.
  apply (reach_ind (fun s log => length (st_queue s) <= length (recs (st_queue s)) + length (called log))).
  - cbn. lia.
  - intros s log s' es _ H Ht. rewrite called_app. destruct Ht; cbn [st_queue] in *; rewrite ?recs_app, ?app_length in *; cbn [length recs flat_map app called] in *; try (fold (recs q) in H); lia.
Qed.
Lemma sv_logs : forall s log, reach s log -> forall p, st_worker s = WShut (Some p) -> spans = false.
Proof.
  apply (reach_ind (fun s log => forall p, st_worker s = WShut (Some p) -> spans = false)).
  - discriminate.
  - assert (HA : forall src ok p, after_export src ok = WShut (Some p) -> spans = false).
    { intros [| |[|] c] ok p; cbn; try discriminate. now destruct spans. }
    intros s log s' es _ H Ht p E. destruct Ht; cbn [st_worker] in *; try discriminate; eauto.
Qed.
Definition down (w : worker) : Prop := w = WExited \/ (exists c ok, w = WAnswer KShutdown c ok /\ spans = false).
Definition once (l : list event) (e : event) : Prop := match e with EExportBegin _ | EExporterShutdown => ~ In EExporterShutdown l | _ => True end.
Lemma down_after : forall src ok, ~ down (after_export src ok).
Proof. intros src ok. exact (after_exit src ok). Qed.
Lemma once_inv : forall s log, reach s log -> (In EExporterShutdown log -> down (st_worker s)) /\ always once log.
Proof.
  assert (HW : forall w, down w -> w = WIdle \/ (exists s, w = WExporting s) \/ (exists c ok, w = WAnswer KFlush c ok) \/ (exists o, w = WShut o) -> False).
  { intros w [->|(c & ok & -> & _)] [E|[[? E]|[(? & ? & E)|[? E]]]]; discriminate. }
  apply (reach_ind (fun s log => (In EExporterShutdown log -> down (st_worker s)) /\ always once log)).
  - split; [intros []|]. intros [|x l] e l' E; discriminate.
  - intros s log s' es Hr [H1 H2] Ht.
    assert (Hmore : forall e w', e <> EExporterShutdown -> (down (st_worker s) -> down w') -> In EExporterShutdown (log ++ [e]) -> down w').
    { intros e w' He Hw Hin. apply in_app_or in Hin. destruct Hin as [Hin|[Hin|[]]]; [auto|congruence]. }
    destruct Ht; cbn [st_worker] in *.
    + split; [apply Hmore; [discriminate|auto]|apply always_snoc; [assumption|exact I]].
    + split; [apply Hmore; [discriminate|auto]|apply always_snoc; [assumption|exact I]].
    + rewrite app_nil_r. auto.
    + split; [apply Hmore; [discriminate|auto]|apply always_snoc; [assumption|exact I]].
    + change (log ++ [ECall k (length cs); EReturn k (length cs) false]) with (log ++ ([ECall k (length cs)] ++ [EReturn k (length cs) false])). rewrite app_assoc. split.
      * intros Hin. apply in_app_or in Hin. destruct Hin as [Hin|[Hin|[]]]; [|discriminate]. revert Hin. apply Hmore; [discriminate|auto].
      * apply always_snoc; [apply always_snoc; [assumption|exact I]|exact I].
    + rewrite app_nil_r. auto.
    + split; [apply Hmore; [discriminate|]|apply always_snoc; [assumption|]]; [intros Hd; exfalso; eapply HW; eauto|]. cbn. intros Hin. eapply HW; eauto.
    + rewrite app_nil_r. split; [|assumption]. intros Hin. exfalso. eapply HW; eauto.
    + split; [apply Hmore; [discriminate|]|apply always_snoc; [assumption|]]; [intros Hd; exfalso; eapply HW; eauto|]. cbn. intros Hin. eapply HW; eauto.
    + split; [apply Hmore; [discriminate|]|apply always_snoc; [assumption|]]; [intros Hd; exfalso; eapply HW; eauto|]. cbn. intros Hin. eapply HW; eauto.
    + split; [apply Hmore; [discriminate|]|apply always_snoc; [assumption|exact I]]. intros Hd; exfalso; eapply HW; eauto.
    + split; [apply Hmore; [discriminate|]|apply always_snoc; [assumption|exact I]]. intros Hd; exfalso; eapply HW; eauto 6.
    + split; [apply Hmore; [discriminate|]|apply always_snoc; [assumption|exact I]]. intros [Hd|(c0 & ok0 & _ & Hd)]; [discriminate|congruence].
    + split; [apply Hmore; [discriminate|]|apply always_snoc; [assumption|exact I]]. intros _. now left.
    + split; [|apply always_snoc; [assumption|]]; [|cbn; intros Hin; eapply HW; eauto 6].
      intros _. right. exists c, ok. split; [reflexivity|]. destruct spans eqn:Es; [|reflexivity]. exfalso.
      pose proof (sv_logs _ _ Hr) as Hs. cbn [st_worker] in Hs. rewrite (Hs _ eq_refl) in Es. discriminate.
    + split; [intros _; now left|]. apply always_snoc; [assumption|]. cbn. intros Hin. eapply HW; eauto 6.
    + split; [apply Hmore; [discriminate|auto]|apply always_snoc; [assumption|exact I]].
    + split; [apply Hmore; [discriminate|auto]|apply always_snoc; [assumption|exact I]].
Qed.

(** ** Progress *)
(** The worker's own steps, with every export ending as [ok] says. *)
Definition worker_act (ok : bool) (a : @action R) : Prop := match a with ATake | AAnswer | AShut => True | AExported o => o = ok | _ => False end.
Definition wm (w : worker) : nat :=
  match w with WIdle | WExited => 0 | WExporting _ => 3 | WAnswer KFlush _ _ => 1 | WAnswer KShutdown _ _ => if spans then 2 else 1 | WShut None => 1 | WShut (Some _) => 2 end.
Definition meas (s : state) : nat := 4 * length (st_queue s) + wm (st_worker s).
Lemma wm_after : forall src ok, wm (after_export src ok) <= 2.
Proof. intros [| |[|] c] ok; cbn; try lia. destruct spans eqn:E; cbn; rewrite ?E; lia. Qed.
Lemma worker_step : forall (ok : bool) s log c k, reach s log -> nth_error (st_calls s) c = Some (Waiting k None) -> st_worker s <> WExited ->
  exists a s' es, step s a = Some (s', es) /\ worker_act ok a /\ meas s' < meas s /\
    exists o, nth_error (st_calls s') c = Some (Waiting k o).
Proof.
  intros ok s log c k Hr Hc Hw. pose proof (calls_ok _ _ Hr) as HI. pose proof (sv_logs _ _ Hr) as Hsl.
  destruct s as [q buf w cs d]. cbn [st_calls st_worker] in *. destruct HI as (_ & _ & _ & H4 & _).
  assert (HA : forall cs0 c0 o0, nth_error cs0 c = Some (Waiting k None) -> exists o, nth_error (set_answer c0 o0 cs0) c = Some (Waiting k o)).
  { intros cs0 c0 o0 E. rewrite set_answer_nth, E. destruct (Nat.eqb c0 c); eauto. }
  destruct w as [|src|k0 c0 o0|[[c0 o0]|]|]; [| | | | |congruence].
  - destruct (H4 _ _ Hc) as [Hin|[E|E]]; [|discriminate|discriminate]. destruct q as [|m q]; [destruct Hin|].
    assert (HS : exists s' es, step (mk (m :: q) buf WIdle cs d) ATake = Some (s', es) /\ st_queue s' = q /\ st_calls s' = cs /\ wm (st_worker s') <= 3).
    { destruct m as [r|k1 c1]; cbn [AsyncModel.step].
      - destruct (length (buf ++ [r]) =? maxb).
        + unfold export. destruct (buf ++ [r]) as [|x l]; eexists _, _; (split; [reflexivity|cbn; auto with arith]).
        + eexists _, _. split; [reflexivity|cbn; auto with arith].
      - unfold export. destruct buf as [|x l]; eexists _, _; (split; [reflexivity|]); cbn [st_queue st_calls st_worker]; (split; [reflexivity|split; [reflexivity|]]);
          [pose proof (wm_after (Call k1 c1) true); lia|cbn; lia]. }
    destruct HS as (s' & es & Hs & Hq & Hcs & Hm). exists ATake, s', es. split; [exact Hs|]. split; [exact I|]. split; [|rewrite Hcs; eauto].
    unfold meas. rewrite Hq. cbn [st_queue st_worker length wm]. lia.
  - exists (AExported ok). eexists _, _. split; [reflexivity|]. split; [reflexivity|]. split; [|cbn; eauto]. unfold meas. cbn [st_queue st_worker].
    pose proof (wm_after src ok). cbn [wm]. lia.
  - exists AAnswer. destruct k0.
    + eexists _, _. split; [reflexivity|]. split; [exact I|]. split; [unfold meas; cbn; lia|]. cbn [st_calls]. apply HA. exact Hc.
    + cbn [AsyncModel.step]. destruct spans eqn:Es; (eexists _, _; split; [reflexivity|]; split; [exact I|]; split; [unfold meas; cbn; rewrite ?Es; lia|]; cbn [st_calls]; apply HA; exact Hc).
  - exists AShut. eexists _, _. split; [reflexivity|]. split; [exact I|]. split; [|cbn; eauto]. unfold meas. cbn. rewrite (Hsl _ eq_refl). lia.
  - exists AShut. eexists _, _. split; [reflexivity|]. split; [exact I|]. split; [|cbn; eauto]. unfold meas. cbn. lia.
Qed.
Lemma reach_step : forall s log a s' es, reach s log -> step s a = Some (s', es) -> reach s' (log ++ es).
Proof. intros s log a s' es [acts H] Hs. exists (acts ++ [a]). now rewrite run_app, H, run_one, Hs. Qed.
Lemma progress : forall ok n s log c k, reach s log -> nth_error (st_calls s) c = Some (Waiting k None) -> meas s <= n ->
  exists acts s' es, run s acts = Some (s', es) /\ Forall (worker_act ok) acts /\ length acts <= n /\ step s' (AReturn c) <> None.
Proof.
  intros ok. induction n as [|n IH]; intros s log c k Hr Hc Hm.
  - assert (Hw : st_worker s = WExited \/ st_worker s <> WExited) by (destruct (st_worker s); (left; reflexivity) || (right; discriminate)).
    destruct Hw as [Hw|Hw].
    + exists [], s, []. split; [reflexivity|]. split; [constructor|]. split; [auto|]. destruct s as [q buf w cs d]. cbn [st_worker st_calls] in *. subst w. cbn [AsyncModel.step]. now rewrite Hc.
    + destruct (worker_step ok _ _ _ _ Hr Hc Hw) as (a & s' & es & _ & _ & Hlt & _). lia.
  - assert (Hw : st_worker s = WExited \/ st_worker s <> WExited) by (destruct (st_worker s); (left; reflexivity) || (right; discriminate)).
    destruct Hw as [Hw|Hw].
    + exists [], s, []. split; [reflexivity|]. split; [constructor|]. split; [cbn; lia|]. destruct s as [q buf w cs d]. cbn [st_worker st_calls] in *. subst w. cbn [AsyncModel.step]. now rewrite Hc.
    + destruct (worker_step ok _ _ _ _ Hr Hc Hw) as (a & s1 & es & Hs & Ha & Hlt & [[o|] Ho]).
      * exists [a], s1, es. rewrite run_one. split; [exact Hs|]. split; [constructor; [exact Ha|constructor]|]. split; [cbn; lia|].
        destruct s1 as [q buf w cs d]. cbn [st_calls] in *. cbn [AsyncModel.step]. rewrite Ho. destruct w; discriminate.
      * destruct (IH s1 (log ++ es) c k) as (acts & s2 & es2 & Hrun & Hf & Hl & Hret); [eapply reach_step; eassumption|exact Ho|lia|].
        exists (a :: acts), s2, (es ++ es2). cbn [AsyncModel.run]. rewrite Hs, Hrun. split; [reflexivity|]. split; [constructor; assumption|]. split; [cbn; lia|exact Hret].
Qed.

(** ** Reading the invariants *)
Lemma exported_worker : forall log : list event, exported (filter by_worker log) = exported log.
Proof. induction log as [|e log IH]; [reflexivity|]. destruct e; cbn [filter by_worker]; cbn [exported flat_map app]; fold (exported log); fold (exported (filter by_worker log)); now rewrite ?IH. Qed.
Lemma pass_sizes : forall ok l, pass (fun n => 0 < n < maxb) ok l -> Forall (fun b => 0 < length b <= maxb) (exported (R := R) l).
Proof. intros ok l [|b ok' H]; cbn; [constructor|]. constructor; [lia|constructor]. Qed.
Lemma cycle_sizes : 0 < maxb -> forall src l, cycle maxb spans src l -> Forall (fun b => 0 < length b <= maxb) (exported (R := R) l).
Proof.
  intros Hm src l H. destruct H as [b ok H|ok l H|c ok l H|c ok l H].
  - cbn. constructor; [lia|constructor].
  - eapply pass_sizes; exact H.
  - rewrite exported_app. cbn. rewrite app_nil_r. eapply pass_sizes; exact H.
  - rewrite exported_app. replace (exported (if spans then _ else _)) with (@nil (list R)) by (destruct spans; reflexivity). rewrite app_nil_r. eapply pass_sizes; exact H.
Qed.
Lemma partial_cycle : 0 < maxb -> forall w l, partial w l -> exists src tail, cycle maxb spans src (l ++ tail).
Proof.
  intros Hm w l H. destruct H as [| |b H|src b Hn H|c ok l H|c ok l Hs H|c ok l Hs H|c ok l Hs H|c ok l Hs H].
  - exists Timer, []. econstructor. constructor.
  - exists Timer, []. econstructor. constructor.
  - exists Full, [EExportEnd true]. now constructor.
  - exists Timer, [EExportEnd true]. apply (cycle_tick _ _ true). cbn. now constructor.
  - exists (Call KFlush c), [EAnswer c ok]. now constructor.
  - exists (Call KShutdown c), (if spans then [EAnswer c ok; EExporterShutdown] else [EExporterShutdown; EAnswer c ok]). now constructor.
  - exists (Call KShutdown c), [EExporterShutdown]. rewrite <- app_assoc. cbn [app].
    replace [EAnswer c ok; EExporterShutdown] with (if spans then [@EAnswer R c ok; EExporterShutdown] else [EExporterShutdown; EAnswer c ok]) by (rewrite Hs; reflexivity). now constructor.
  - exists (Call KShutdown c), (if spans then [EAnswer c ok; EExporterShutdown] else [EExporterShutdown; EAnswer c ok]). now constructor.
  - exists (Call KShutdown c), [EAnswer c ok]. rewrite <- app_assoc. cbn [app].
    replace [EExporterShutdown; EAnswer c ok] with (if spans then [@EAnswer R c ok; EExporterShutdown] else [EExporterShutdown; EAnswer c ok]) by (rewrite Hs; reflexivity). now constructor.
Qed.
Lemma call_place : forall (a a' b b' : list event) k k' c, NoDup (called (a ++ ECall k c :: b)) -> a ++ ECall k c :: b = a' ++ ECall k' c :: b' -> a = a'.
Proof.
  induction a as [|x a IH]; intros a' b b' k k' c Hn E; destruct a' as [|x' a']; cbn [app] in E.
  - reflexivity.
  - injection E as <- E. cbn in Hn. apply NoDup_cons_iff in Hn. destruct Hn as [Hn _]. exfalso. apply Hn. apply (called_in _ k'). rewrite E. apply in_or_app. right. now left.
  - injection E as -> E. cbn in Hn. apply NoDup_cons_iff in Hn. destruct Hn as [Hn _]. exfalso. apply Hn. apply (called_in _ k). apply in_or_app. right. now left.
  - injection E as <- E. f_equal. eapply IH; [|exact E]. cbn [app called flat_map] in Hn. fold (called (a ++ ECall k c :: b)) in Hn. destruct x; try exact Hn. cbn in Hn. now apply NoDup_cons_iff in Hn.
Qed.
Lemma answered : forall s log a k c b l ok l', reach s log -> log = a ++ ECall k c :: b -> log = l ++ EAnswer c ok :: l' ->
  since l k c a /\ cov l a /\ (spans = false -> k = KShutdown -> In EExporterShutdown l).
Proof.
  intros s log a k c b l ok l' Hr E El. pose proof (data_inv _ _ Hr) as (_&_&_&_&_&_&_&D8). pose proof (calls_ok _ _ Hr) as HI. destruct s as [q buf w cs d].
  destruct HI as (_&_&_&_&_&H6&H7). specialize (H7 _ _ _ El). cbn in H7. destruct H7 as [(k' & a' & [b' Ha'] & Hc') H7].
  assert (a = a'). { eapply (call_place a a' b (b' ++ EAnswer c ok :: l') k k' c); [rewrite <- E, D8; apply seq_NoDup|]. rewrite <- E, El, Ha', <- app_assoc. reflexivity. }
  subst a'. assert (k' = k). { apply (H6 k' c); [rewrite El, Ha'; apply in_or_app; left|rewrite E]; apply in_or_app; right; left; reflexivity. }
  subst k'. split; [exists b'; exact Ha'|]. split; [exact Hc'|]. intros Hs Hk. apply (H7 Hs k); [|exact Hk]. rewrite Ha'. apply in_or_app; right; left; reflexivity.
Qed.
Lemma returned : forall s log l k c l', reach s log -> log = l ++ EReturn k c true :: l' -> In (EAnswer c true) l.
Proof. intros s log l k c l' Hr E. pose proof (calls_ok _ _ Hr) as HI. destruct s as [q buf w cs d]. destruct HI as (_&_&_&_&_&_&H7). exact (H7 _ _ _ E). Qed.
End proofs.

(** Every record is taken in and handed to the exporter in order, none twice: the batches
    concatenate to a prefix of the accepted records.  What is still missing before the
    exporter is shut down is bounded. *)
Theorem C66_exported_in_order {R} : forall (sampled : R -> bool) cap maxb spans s log, reach sampled cap maxb spans s log ->
  exists pending, accepted log = concat (exported log) ++ pending /\
    (~ In EExporterShutdown log -> 0 < maxb -> length pending <= cap + (maxb - 1)) /\
    Forall (fun r => sampled r = true) (accepted log).
Proof.
  intros sampled cap maxb spans s log Hr. pose proof (data_inv _ _ _ _ _ _ Hr) as (D1&_&[p Hp]&D4&D5&_&D7&_). exists p. split; [exact Hp|]. split; [|exact D7].
  intros Hs Hm. pose proof (calls_ok _ _ _ _ _ _ Hr) as HI. destruct s as [q buf w cs d]. destruct HI as (_&_&_&_&H5&_). cbn [st_worker st_buf st_queue] in *.
  assert (Hw : w <> WExited) by (intros ->; apply Hs; apply H5; now left). rewrite (D1 Hw) in Hp. apply app_inv_head in Hp. subst p. rewrite app_length.
  assert (length (recs q) <= length q). { clear. unfold recs. induction q as [|[r|k c] q IH]; cbn [flat_map app length]; lia. } specialize (D5 Hm). lia.
Qed.
Print Assumptions C66_exported_in_order.

Theorem C66_batch_sizes {R} : forall (sampled : R -> bool) cap maxb spans s log, 0 < maxb -> reach sampled cap maxb spans s log ->
  Forall (fun b => 1 <= length b <= maxb) (exported log).
Proof.
  intros sampled cap maxb spans s log Hm Hr. destruct (history_ok _ _ _ _ Hm _ _ Hr) as (cy & rest & H1 & H2 & H3 & _).
  rewrite <- exported_worker, H1, exported_app. apply Forall_app. split.
  - clear H1. induction H2 as [|p cy Hp _ IH]; [constructor|]. cbn [map concat]. rewrite exported_app. apply Forall_app. split; [exact (cycle_sizes _ _ Hm _ _ Hp)|exact IH].
  - destruct (partial_cycle _ _ Hm _ _ H3) as (src & tail & Hc). apply (cycle_sizes _ _ Hm) in Hc. rewrite exported_app in Hc. apply Forall_app in Hc. apply Hc.
Qed.
Print Assumptions C66_batch_sizes.

(** A flush or shutdown that reports success has handed over everything accepted before it
    was called. *)
Theorem C66_flush_complete {R} : forall (sampled : R -> bool) cap maxb spans s log a k c b d, reach sampled cap maxb spans s log ->
  log = a ++ ECall k c :: b ++ EReturn k c true :: d ->
  prefix (accepted a) (concat (exported (a ++ ECall k c :: b))).
Proof.
  intros sampled cap maxb spans s log a k c b d Hr E.
  assert (E2 : log = (a ++ ECall k c :: b) ++ EReturn k c true :: d) by (rewrite E, <- app_assoc; reflexivity).
  pose proof (returned _ _ _ _ _ _ _ _ _ _ Hr E2) as Hin. apply in_split in Hin. destruct Hin as (l & l' & El).
  destruct (answered _ _ _ _ _ _ a k c (b ++ EReturn k c true :: d) l true (l' ++ EReturn k c true :: d) Hr E) as (_ & Hc & _).
  { rewrite E2, El, <- app_assoc. reflexivity. }
  rewrite El. now apply cov_more.
Qed.
Print Assumptions C66_flush_complete.
(** So has one whose own export failed. *)
Theorem C66_answered_flush_complete {R} : forall (sampled : R -> bool) cap maxb spans s log a k c b ok d, reach sampled cap maxb spans s log ->
  log = a ++ ECall k c :: b ++ EAnswer c ok :: d ->
  prefix (accepted a) (concat (exported (a ++ ECall k c :: b))).
Proof.
  intros sampled cap maxb spans s log a k c b ok d Hr E.
  apply (answered _ _ _ _ _ _ a k c (b ++ EAnswer c ok :: d) _ ok d Hr E). rewrite E, <- app_assoc. reflexivity.
Qed.
Print Assumptions C66_answered_flush_complete.
(** A call fails only because its export failed, because the processor was shut down, or
    because the queue was full when it was made, in which case it fails at once. *)
Theorem C66_failures {R} : forall (sampled : R -> bool) cap maxb spans s log k c l l', reach sampled cap maxb spans s log ->
  log = l ++ EReturn k c false :: l' ->
  In (EAnswer c false) l \/ In EExporterShutdown l \/ (exists l0, l = l0 ++ [ECall k c]).
Proof.
  intros sampled cap maxb spans s log k c l l' Hr E. pose proof (calls_ok _ _ _ _ _ _ Hr) as HI. destruct s as [q buf w cs d]. destruct HI as (_&_&_&_&_&_&H7). exact (H7 _ _ _ E).
Qed.
Print Assumptions C66_failures.
(** Everything the worker does is a sequence of cycles, the last of which may be under way:
    full batches, ticks, flushes, and at most one shutdown, after which there is nothing.
    In particular exports never overlap, and an answer tells how the call's own export
    went. *)
Theorem C66_worker_history {R} : forall (sampled : R -> bool) cap maxb spans s log, 0 < maxb -> reach sampled cap maxb spans s log ->
  exists cycles src rest tail, filter by_worker log = concat (map snd cycles) ++ rest /\
    Forall (fun p => cycle maxb spans (fst p) (snd p)) cycles /\ cycle maxb spans src (rest ++ tail) /\
    (forallb (fun p => negb (is_shutdown (fst p))) cycles = true \/
     rest = [] /\ exists pre c l, cycles = pre ++ [(Call KShutdown c, l)] /\ forallb (fun p => negb (is_shutdown (fst p))) pre = true).
Proof.
  intros sampled cap maxb spans s log Hm Hr. destruct (history_ok _ _ _ _ Hm _ _ Hr) as (cy & rest & H1 & H2 & H3 & H4).
  destruct (partial_cycle _ _ Hm _ _ H3) as (src & tail & Hc). exists cy, src, rest, tail. split; [exact H1|]. split; [exact H2|]. split; [exact Hc|].
  destruct (st_worker s); try (left; exact H4). right. split; [inversion H3; reflexivity|exact H4].
Qed.
Print Assumptions C66_worker_history.
(** The exporter is shut down at most once and gets nothing afterwards. *)
Theorem C66_nothing_after_shutdown {R} : forall (sampled : R -> bool) cap maxb spans s log l l', reach sampled cap maxb spans s log ->
  log = l ++ EExporterShutdown :: l' -> exported l' = [] /\ ~ In EExporterShutdown l'.
Proof.
  intros sampled cap maxb spans s log l l' Hr E. destruct (once_inv _ _ _ _ _ _ Hr) as [_ H]. split.
  - destruct (exported l') as [|b bs] eqn:Eb; [reflexivity|]. exfalso. assert (Hin : In b (exported l')) by (rewrite Eb; now left).
    unfold exported in Hin. apply in_flat_map in Hin. destruct Hin as ([] & Hin & Hb); cbn in Hb; try contradiction. apply in_split in Hin. destruct Hin as (l1 & l2 & ->).
    specialize (H (l ++ EExporterShutdown :: l1) (EExportBegin batch) l2). rewrite E, <- app_assoc in H. specialize (H eq_refl). apply H. apply in_or_app. right. now left.
  - intros Hin. apply in_split in Hin. destruct Hin as (l1 & l2 & ->).
    specialize (H (l ++ EExporterShutdown :: l1) EExporterShutdown l2). rewrite E, <- app_assoc in H. specialize (H eq_refl). apply H. apply in_or_app. right. now left.
Qed.
Print Assumptions C66_nothing_after_shutdown.
(** The log processor's shutdown returns success only after the exporter was shut down; the
    span processor answers first. *)
Theorem C66_log_shutdown_waits {R} : forall (sampled : R -> bool) cap maxb s log a c b d, reach sampled cap maxb false s log ->
  log = a ++ ECall KShutdown c :: b ++ EReturn KShutdown c true :: d -> In EExporterShutdown (a ++ ECall KShutdown c :: b).
Proof.
  intros sampled cap maxb s log a c b d Hr E.
  assert (E2 : log = (a ++ ECall KShutdown c :: b) ++ EReturn KShutdown c true :: d) by (rewrite E, <- app_assoc; reflexivity).
  pose proof (returned _ _ _ _ _ _ _ _ _ _ Hr E2) as Hin. apply in_split in Hin. destruct Hin as (l & l' & El).
  destruct (answered _ _ _ _ _ _ a KShutdown c (b ++ EReturn KShutdown c true :: d) l true (l' ++ EReturn KShutdown c true :: d) Hr E) as (_ & _ & Hs).
  { rewrite E2, El, <- app_assoc. reflexivity. }
  rewrite El. apply in_or_app. left. auto.
Qed.
Print Assumptions C66_log_shutdown_waits.
(** A record is refused only after the shutdown or when the records not yet exported and
    the calls made so far fill the queue; the refused ones are counted. *)
Theorem C66_refused_only_when_full {R} : forall (sampled : R -> bool) cap maxb spans s log, reach sampled cap maxb spans s log ->
  length (refused log) = st_dropped s /\
  forall l r l', log = l ++ EEmit r false :: l' -> In EExporterShutdown l \/ cap <= (length (accepted l) - length (concat (exported l))) + length (called l).
Proof.
  intros sampled cap maxb spans s log Hr. split; [apply (data_inv _ _ _ _ _ _ Hr)|].
  set (P := fun (l : list (@event R)) (e : @event R) => match e with EEmit r false => In EExporterShutdown l \/ cap <= (length (accepted l) - length (concat (exported l))) + length (called l) | _ => True end).
  assert (H : always P log); [|intros l r l' E; exact (H _ _ _ E)]. revert s log Hr. apply (reach_ind sampled cap maxb spans (fun _ log => always P log)).
  - intros [|x l] e l' E; discriminate.
  - intros s log s' es Hr H Ht. destruct Ht; try (apply always_snoc; [assumption|exact I]); try (rewrite app_nil_r; assumption).
    + apply always_snoc; [assumption|]. cbn. pose proof (calls_ok _ _ _ _ _ _ Hr) as (_&_&_&_&H5&_). pose proof (queue_len _ _ _ _ _ _ Hr) as Hq. pose proof (data_inv _ _ _ _ _ _ Hr) as (D1&_). cbn [st_worker st_queue st_buf] in *.
      assert (Hw : w = WExited \/ w <> WExited) by (destruct w; (left; reflexivity) || (right; discriminate)).
      destruct Hw as [Hw|Hw]; [left; apply H5; auto|]. right. destruct H1 as [H1|H1]; [contradiction|]. rewrite (D1 Hw), !app_length. lia.
    + change (log ++ [ECall k (length cs); EReturn k (length cs) false]) with (log ++ ([ECall k (length cs)] ++ [EReturn k (length cs) false])). rewrite app_assoc.
      apply always_snoc; [apply always_snoc; [assumption|exact I]|exact I].
Qed.
Print Assumptions C66_refused_only_when_full.
(** No call waits forever: however the exports end, as long as they end, the worker's own
    steps, of which there are at most four per queued message and three more, let it
    return. *)
Theorem C66_calls_return {R} : forall (sampled : R -> bool) cap maxb spans s log c k ok, reach sampled cap maxb spans s log ->
  nth_error (st_calls s) c = Some (Waiting k None) ->
  exists acts s' es, run sampled cap maxb spans s acts = Some (s', es) /\ Forall (worker_act ok) acts /\
    length acts <= 4 * length (st_queue s) + 3 /\ step sampled cap maxb spans s' (AReturn c) <> None.
Proof.
  intros sampled cap maxb spans s log c k ok Hr Hc. eapply progress; [exact Hr|exact Hc|]. unfold meas. destruct (st_worker s) as [| |[|]|[]|]; cbn; try lia; destruct spans; lia.
Qed.
Print Assumptions C66_calls_return.

(** Not so: a successful flush tells nothing about earlier full batches, whose failures are
    only logged. *)
Definition all_sampled (r : nat) : bool := true.
Theorem C137_flush_reports_failures_refuted :
  ~ (forall spans s log l l' c, reach all_sampled 4 1 spans s log -> log = l ++ EReturn KFlush c true :: l' -> ~ In (EExportEnd false) l).
Proof.
  intros H. eapply (H true _ _ [EEmit 7 true; EExportBegin [7]; EExportEnd false; ECall KFlush 0; EAnswer 0 true] [] 0).
  - exists [AEmit 7; ATake; AExported false; ACall KFlush; ATake; AAnswer; AReturn 0]. reflexivity.
  - reflexivity.
  - cbn. tauto.
Qed.
Print Assumptions C137_flush_reports_failures_refuted.
Theorem C137_span_shutdown_waits_refuted :
  ~ (forall s log l l' c, reach all_sampled 4 2 true s log -> log = l ++ EReturn KShutdown c true :: l' -> In EExporterShutdown l).
Proof.
  intros H. assert (Hr : exists s, reach all_sampled 4 2 true s ([ECall KShutdown 0; EAnswer 0 true] ++ EReturn KShutdown 0 true :: [])).
  { eexists. exists [ACall KShutdown; ATake; AAnswer; AReturn 0]. reflexivity. }
  destruct Hr as [s Hr]. specialize (H _ _ _ _ _ Hr eq_refl). cbn in H. intuition discriminate.
Qed.
Print Assumptions C137_span_shutdown_waits_refuted.

(** Three records, a batch size of two, a flush and a shutdown; a record after it is
    refused. *)
Example C66_nonvacuous : forall spans, exists s log, reach all_sampled 4 2 spans s log /\
  exported log = [[1; 2]; [3]] /\ accepted log = [1; 2; 3] /\ refused log = [4] /\ In (EReturn KFlush 0 false) log /\ In (EReturn KShutdown 1 true) log /\ In EExporterShutdown log.
Proof.
  intros [|].
  - eexists _, _. split; [exists [AEmit 1; AEmit 2; AEmit 3; ACall KFlush; ATake; ATake; AExported true; ATake; ATake; AExported false; AAnswer; AReturn 0; ACall KShutdown; ATake; AAnswer; AShut; AReturn 1; AEmit 4]; reflexivity|cbn; tauto].
  - eexists _, _. split; [exists [AEmit 1; AEmit 2; AEmit 3; ACall KFlush; ATake; ATake; AExported true; ATake; ATake; AExported false; AAnswer; AReturn 0; ACall KShutdown; ATake; AShut; AAnswer; AReturn 1; AEmit 4]; reflexivity|cbn; tauto].
Qed.
