(** C56, C75, C76. *)
From Coq Require Import List Bool Arith NArith Lia.
From Verif Require Import Str InstrModel PipelineModel ProviderModel ProviderProps ProduceModel.
Import ListNotations.

(** * Specification *)
Section spec.
Context {Sc R T P St : Type}.
Context (readonly : St -> list P) (reset : St -> list P * St).
Notation inst := (@inst T St). Notation aggr := (@aggr T St). Notation mdata := (@mdata T P).

(** What an instrument has to report now: the points since the last collection for delta
    instruments, all points otherwise. *)
Definition points_now (a : aggr) : list P :=
  match a_temp a with Delta => fst (reset (a_st a)) | _ => readonly (a_st a) end.
(** The data it reports, written from scratch. *)
Definition fresh_data (a : aggr) (now : T) : amdata :=
  let t := match a_temp a with Delta => Delta | _ => Cumulative end in
  let pts := points_now a in
  (a_num a, match a_shape a with
            | ShGauge => MGauge (mk_gauge pts (Some (a_init a)) now)
            | ShSum mono => MSum (mk_sum pts (a_init a) now t mono)
            | ShHist => MHist (mk_hist pts (a_init a) now t)
            | ShExpo => MExpo (mk_hist pts (a_init a) now t)
            end).
Definition fresh_metrics (is : list (inst * T)) : list (@metric T P) :=
  flat_map (fun '(i, now) => match points_now (i_ag i) with
                             | [] => []
                             | _ => [mk_metric (i_nm i) (i_ds i) (i_un i) (fresh_data (i_ag i) now)]
                             end) is.
Definition fresh_scopes (aggs : list (Sc * list (inst * T))) : list (@scope_metrics Sc T P) :=
  flat_map (fun '(sc, is) => match fresh_metrics is with [] => [] | ms => [mk_sm sc ms] end) aggs.
(** What is left in an instrument after the collection. *)
Definition after (i : inst) (now : T) : inst :=
  let a := i_ag i in
  mk_inst (i_nm i) (i_ds i) (i_un i)
    match a_temp a with
    | Delta => mk_aggr (a_num a) (a_shape a) (a_temp a) now (snd (reset (a_st a)))
    | _ => a
    end.
End spec.

(** * Proofs *)
Section proofs.
Context {Sc R T P St : Type} (empty_scope : Sc).
Context (readonly : St -> list P) (reset : St -> list P * St).
Notation inst := (@inst T St). Notation aggr := (@aggr T St).

Lemma call_spec : forall (a : aggr) now dest,
  exists new dest', call readonly reset a now dest =
    (length (points_now readonly reset a), new, dest', i_ag (after reset (mk_inst nil nil nil a) now)) /\
  match dest with
  | None => new = Some (fresh_data readonly reset a now) /\ dest' = None
  | Some d => exists d', dest' = Some d' /\ match new with Some n => n | None => d' end = fresh_data readonly reset a now
  end.
Proof.
  intros a now dest. unfold call, fresh_data, points_now, after, init_delta, init_cumulative. cbn [i_ag].
  destruct a as [n sh t init st]. cbn [a_num a_shape a_temp a_init a_st].
  destruct t; try destruct (reset st) as [pts st'] eqn:Er; cbn [fst snd];
  (destruct dest as [[n' d]|];
   [ destruct (num_eq_dec n' n) as [-> |Hn]; cbn [option_map];
     [ destruct sh, d; cbn; eexists _, _; (split; [reflexivity|]); eexists; split; reflexivity
     | destruct sh; cbn; eexists _, _; (split; [reflexivity|]); eexists; split; reflexivity ]
   | destruct sh; cbn; eexists _, _; (split; [reflexivity|]); split; reflexivity ]).
Qed.

Lemma after_ag : forall (i : inst) (now : T), mk_inst (i_nm i) (i_ds i) (i_un i) (i_ag (after reset (mk_inst nil nil nil (i_ag i)) now)) = after reset i now.
Proof. intros [? ? ? a] now. reflexivity. Qed.

Lemma firstn_set_nth {A} : forall j (l : list A) x, firstn j (set_nth j x l) = firstn j l.
Proof. induction j as [|j IH]; intros [|y l] x; cbn; try reflexivity. now rewrite IH. Qed.
Lemma firstn_S_set_nth {A} : forall j (l : list A) x, j < length l -> firstn (S j) (set_nth j x l) = firstn j l ++ [x].
Proof.
  induction j as [|j IH]; intros [|y l] x H; cbn [length] in H; try lia.
  - reflexivity.
  - cbn [set_nth]. change (firstn (S (S j)) (y :: set_nth j x l)) with (y :: firstn (S j) (set_nth j x l)).
    rewrite IH by lia. reflexivity.
Qed.

Lemma inst_step_spec : forall ms j (i : inst) (now : T), j <= length ms ->
  exists ms', inst_step readonly reset ms j i now =
    (ms', j + length (fresh_metrics readonly reset [(i, now)]), after reset i now) /\
  firstn (j + length (fresh_metrics readonly reset [(i, now)])) ms' = firstn j ms ++ fresh_metrics readonly reset [(i, now)] /\
  j + length (fresh_metrics readonly reset [(i, now)]) <= length ms'.
Proof.
  intros ms j i now Hj. unfold inst_step. cbn [fresh_metrics flat_map].
  destruct (call_spec (i_ag i) now (option_map m_data (nth_error ms j))) as (new & dest' & E & Hd).
  rewrite E. rewrite after_ag. clear E.
  destruct (nth_error ms j) as [m|] eqn:Em; cbn [option_map] in Hd.
  - destruct Hd as (d' & -> & Hd).
    assert (Hlt : j < length ms) by (apply nth_error_Some; congruence).
    destruct (points_now readonly reset (i_ag i)) as [|p pts] eqn:Ep; cbn [length Nat.ltb Nat.leb app].
    + eexists. split; [now rewrite Nat.add_0_r|]. rewrite Nat.add_0_r, app_nil_r, firstn_set_nth, set_nth_length. split; [reflexivity|lia].
    + eexists. split; [now rewrite Nat.add_1_r|]. rewrite Nat.add_1_r.
      rewrite firstn_S_set_nth by (rewrite set_nth_length; exact Hlt). rewrite firstn_set_nth, !set_nth_length.
      split; [|lia]. f_equal. f_equal. f_equal. destruct new; exact Hd.
  - destruct Hd as (-> & ->).
    assert (Hge : j = length ms) by (apply nth_error_None in Em; lia). subst j.
    destruct (points_now readonly reset (i_ag i)) as [|p pts] eqn:Ep; cbn [length Nat.ltb Nat.leb app].
    + eexists. split; [now rewrite Nat.add_0_r|]. rewrite Nat.add_0_r, app_nil_r. split; [reflexivity|lia].
    + eexists. split; [now rewrite Nat.add_1_r|]. rewrite firstn_all.
      rewrite firstn_all2 by (rewrite app_length; cbn; lia). split; [reflexivity|]. rewrite app_length. cbn. lia.
Qed.

Lemma inst_loop_spec : forall (is : list (inst * T)) ms j, j <= length ms ->
  exists ms', inst_loop readonly reset ms j is =
    (ms', j + length (fresh_metrics readonly reset is), map (fun '(i, now) => after reset i now) is) /\
  firstn (j + length (fresh_metrics readonly reset is)) ms' = firstn j ms ++ fresh_metrics readonly reset is.
Proof.
  induction is as [|[i now] is IH]; intros ms j Hj.
  - exists ms. cbn. rewrite Nat.add_0_r, app_nil_r. auto.
  - cbn [inst_loop]. destruct (inst_step_spec ms j i now Hj) as (ms1 & -> & Hf & Hl).
    destruct (IH ms1 _ Hl) as (ms2 & -> & Hf2).
    assert (E : fresh_metrics readonly reset ((i, now) :: is) = fresh_metrics readonly reset [(i, now)] ++ fresh_metrics readonly reset is)
      by (unfold fresh_metrics; cbn [flat_map]; now rewrite app_nil_r).
    exists ms2. rewrite E, app_length, Nat.add_assoc. split; [reflexivity|].
    rewrite Hf2, Hf, app_assoc. reflexivity.
Qed.

Notation fscopes := (fresh_scopes readonly reset).
Lemma scope_step_spec : forall sms i (sc : Sc) (is : list (inst * T)), i <= length sms ->
  exists sms', scope_step empty_scope readonly reset sms i sc is =
    (sms', i + length (fscopes [(sc, is)]), map (fun '(i, now) => after reset i now) is) /\
  firstn (i + length (fscopes [(sc, is)])) sms' = firstn i sms ++ fscopes [(sc, is)] /\
  i + length (fscopes [(sc, is)]) <= length sms'.
Proof.
  intros sms i sc is Hi. unfold scope_step.
  set (pr := match nth_error sms i with Some sm => (sm, sms) | None => _ end).
  assert (H : exists sm sms1, pr = (sm, sms1) /\ firstn i sms1 = firstn i sms /\ i < length sms1).
  { unfold pr. destruct (nth_error sms i) as [sm|] eqn:E.
    - eexists _, _. split; [reflexivity|]. split; [reflexivity|]. apply nth_error_Some. congruence.
    - apply nth_error_None in E. assert (i = length sms) by lia. subst i. eexists _, _. split; [reflexivity|].
      rewrite firstn_app, Nat.sub_diag. cbn [firstn]. rewrite app_nil_r, app_length. cbn. split; [reflexivity|lia]. }
  destruct H as (sm & sms1 & -> & Hf & Hlt).
  destruct (inst_loop_spec is (sm_metrics sm) 0 ltac:(lia)) as (ms & -> & Hms). cbn [Nat.add firstn app] in Hms. rewrite Nat.add_0_l.
  rewrite Hms. cbn [fresh_scopes flat_map].
  destruct (fresh_metrics readonly reset is) as [|m rest] eqn:Em; cbn [app length].
  - eexists. split; [now rewrite Nat.add_0_r|]. rewrite Nat.add_0_r, app_nil_r, firstn_set_nth, set_nth_length. split; [exact Hf|lia].
  - eexists. split; [now rewrite Nat.add_1_r|]. rewrite Nat.add_1_r, firstn_S_set_nth by exact Hlt.
    rewrite set_nth_length, Hf. split; [reflexivity|lia].
Qed.

Lemma scope_loop_spec : forall (aggs : list (Sc * list (inst * T))) sms i, i <= length sms ->
  exists sms', scope_loop empty_scope readonly reset sms i aggs =
    (sms', i + length (fscopes aggs), map (fun '(sc, is) => (sc, map (fun '(i, now) => after reset i now) is)) aggs) /\
  firstn (i + length (fscopes aggs)) sms' = firstn i sms ++ fscopes aggs.
Proof.
  induction aggs as [|[sc is] aggs IH]; intros sms i Hi.
  - exists sms. cbn. rewrite Nat.add_0_r, app_nil_r. auto.
  - cbn [scope_loop]. destruct (scope_step_spec sms i sc is Hi) as (s1 & -> & Hf & Hl).
    destruct (IH s1 _ Hl) as (s2 & -> & Hf2).
    assert (E : fscopes ((sc, is) :: aggs) = fscopes [(sc, is)] ++ fscopes aggs)
      by (unfold fresh_scopes; cbn [flat_map]; now rewrite app_nil_r).
    exists s2. rewrite E, app_length, Nat.add_assoc. split; [reflexivity|].
    rewrite Hf2, Hf, app_assoc. reflexivity.
Qed.
End proofs.

(** C56: whatever is left in the buffer, a collection puts into it exactly the
    instruments that have something to report, each once, in order, grouped under their
    scope, with freshly written data, and nothing else; and it leaves the instruments in
    the same state. *)
Theorem C56_reused_buffer : forall Sc R T P St (empty_scope : Sc) (readonly : St -> list P) (reset : St -> list P * St)
    (res : R) (aggs : list (Sc * list (@inst T St * T))) (rm : @resource_metrics Sc R T P),
  produce empty_scope readonly reset res aggs rm =
    (mk_rm res (fresh_scopes readonly reset aggs),
     map (fun '(sc, is) => (sc, map (fun '(i, now) => after reset i now) is)) aggs).
Proof.
  intros. unfold produce.
  destruct (scope_loop_spec empty_scope readonly reset aggs (rm_scopes rm) 0 ltac:(lia)) as (s & -> & Hf).
  cbn [Nat.add firstn app] in Hf |- *. now rewrite Hf.
Qed.
Print Assumptions C56_reused_buffer.

(** C56: the buffer's old contents have no influence, and no metric or scope of the
    result is empty. *)
Theorem C56_same_as_fresh : forall Sc R T P St (empty_scope : Sc) (readonly : St -> list P) (reset : St -> list P * St)
    (res res0 : R) (aggs : list (Sc * list (@inst T St * T))) (rm : @resource_metrics Sc R T P),
  produce empty_scope readonly reset res aggs rm = produce empty_scope readonly reset res aggs (mk_rm res0 []) /\
  Forall (fun sm => sm_metrics sm <> []) (rm_scopes (fst (produce empty_scope readonly reset res aggs rm))) /\
  rm_resource (fst (produce empty_scope readonly reset res aggs rm)) = res.
Proof.
  intros. rewrite !C56_reused_buffer. split; [reflexivity|]. split; [|reflexivity]. cbn [fst rm_scopes].
  unfold fresh_scopes. apply Forall_flat_map. apply Forall_forall. intros [sc is] _.
  destruct (fresh_metrics readonly reset is) eqn:E; constructor; [cbn; congruence|constructor].
Qed.
Print Assumptions C56_same_as_fresh.

(** A leftover histogram metric of another scope is replaced by a non-monotonic sum; the
    scope that has nothing to report leaves no trace. *)
Definition ex_readonly (s : list nat) : list nat := s.
Definition ex_reset (s : list nat) : list nat * list nat := (s, []).
Definition ex_inst (sh : shape) (t : temporality) (st : list nat) : inst :=
  mk_inst [97%N] [] [] (mk_aggr I64 sh t 3 st).
Definition ex_leftover : @resource_metrics nat nat nat nat :=
  mk_rm 9 [mk_sm 7 [mk_metric [98%N] [98%N] [98%N] (I64, MSum (mk_sum [5;5] 0 0 Delta true) );
                    mk_metric [99%N] [] [] (F64n, MHist (mk_hist [1] 0 0 Delta))]; mk_sm 8 []].
Example C56_nonvacuous :
  fst (produce 0 ex_readonly ex_reset 1
    [(10, [(ex_inst ShHist Delta [], 4)]);
     (20, [(ex_inst ShHist Delta [], 4); (ex_inst (ShSum false) Cumulative [6;7], 5); (ex_inst ShGauge Delta [8], 6)])] ex_leftover)
  = mk_rm 1 [mk_sm 20 [mk_metric [97%N] [] [] (I64, MSum (mk_sum [6;7] 3 5 Cumulative false));
                       mk_metric [97%N] [] [] (I64, MGauge (mk_gauge [8] (Some 3) 6))]].
Proof. reflexivity. Qed.

(** * C75: reporting windows *)
Section windows.
Context {T P St : Type} (readonly : St -> list P) (reset : St -> list P * St).
(** A life of an aggregator: before each collection arbitrary measurements change the
    store, then it is collected at some time into some buffer. *)
Fixpoint life (a : @aggr T St) (rounds : list ((St -> St) * option (@amdata T P) * T)) : list (option (@amdata T P)) :=
  match rounds with
  | [] => []
  | (f, dest, now) :: rounds =>
      let '(_, new, dest', a') := call readonly reset (mk_aggr (a_num a) (a_shape a) (a_temp a) (a_init a) (f (a_st a))) now dest in
      (match new with Some d => Some d | None => dest' end) :: life a' rounds
  end.
(** The window a piece of data claims to cover. *)
Definition window (d : @amdata T P) : option T * T :=
  match snd d with
  | MGauge g => (g_start g, g_time g)
  | MSum s => (Some (s_start s), s_time s)
  | MHist h | MExpo h => (Some (h_start h), h_time h)
  end.
Definition is_delta (t : temporality) : bool := match t with Delta => true | _ => false end.
(** Delta windows tile the time line from the aggregator's creation on; the others all
    start at the creation. *)
Fixpoint windows (delta : bool) (start : T) (times : list T) : list (option (option T * T)) :=
  match times with
  | [] => []
  | t :: times => Some (Some start, t) :: windows delta (if delta then t else start) times
  end.
End windows.

Theorem C75_windows : forall T P St (readonly : St -> list P) (reset : St -> list P * St)
    (rounds : list ((St -> St) * option (@amdata T P) * T)) (a : @aggr T St),
  map (option_map window) (life readonly reset a rounds) =
    windows (is_delta (a_temp a)) (a_init a) (map snd rounds).
Proof.
  intros T P St readonly reset. induction rounds as [|[[f dest] now] rounds IH]; intros a; [reflexivity|].
  cbn [life map snd windows].
  destruct (call_spec readonly reset (mk_aggr (a_num a) (a_shape a) (a_temp a) (a_init a) (f (a_st a))) now dest) as (new & dest' & -> & Hd).
  cbn [map]. f_equal.
  - assert (E : match new with Some d => Some d | None => dest' end =
        Some (fresh_data readonly reset (mk_aggr (a_num a) (a_shape a) (a_temp a) (a_init a) (f (a_st a))) now)).
    { destruct dest as [d|]; [destruct Hd as (d' & -> & <-); now destruct new|destruct Hd as (-> & _); reflexivity]. }
    rewrite E. cbn [option_map]. unfold fresh_data, window. cbn. destruct (a_shape a); reflexivity.
  - rewrite IH. unfold after. cbn. destruct (a_temp a); reflexivity.
Qed.
Print Assumptions C75_windows.

Example C75_nonvacuous :
  map (option_map window) (life ex_readonly ex_reset (mk_aggr I64 (ShSum true) Delta 10 [])
     [(cons 1, None, 20); (fun s => s, Some (I64, MSum (mk_sum [4] 0 0 Delta true)), 30); (cons 2, Some (U64, MHist (mk_hist [] 0 0 Delta)), 50)])
   = [Some (Some 10, 20); Some (Some 20, 30); Some (Some 30, 50)].
Proof. reflexivity. Qed.

(** * C76: temporality *)
(** A kind whose values may go down. *)
Definition up_down (k : kind) : Prop := k = KUpDown \/ k = KObsUpDown.
(** C76: with a cumulative preference everything is cumulative; a delta preference gives
    delta except for the instruments that may go down; low memory gives delta only for
    the synchronous additive instruments.  In particular an up-down counter is
    cumulative under every preference, and no reader ever asks an aggregator for
    [LowMemory]. *)
Theorem C76_temporality : forall k pref,
  (temporality_preference k pref = Delta <->
     (pref = Delta /\ ~ up_down k) \/ (pref = LowMemory /\ (k = KCounter \/ k = KHistogram))) /\
  (temporality_preference k pref = Delta \/ temporality_preference k pref = Cumulative) /\
  (up_down k -> forall im, aggregate_fn (effective k None) k = Ok (Some im) -> built_temporality k im pref = Cumulative) /\
  (forall im, aggregate_fn ALastValue KObsGauge = Ok (Some im) -> built_temporality KObsGauge im pref = Delta).
Proof.
  intros k pref. unfold up_down. split; [|split; [|split]].
  - destruct k, pref; cbn; split; intros H; try discriminate; try reflexivity;
    try (destruct H as [[? ?]|[? [?|?]]]; try discriminate; try tauto; fail);
    try (left; split; [reflexivity|intros [?|?]; discriminate]); right; split; auto.
  - destruct k, pref; cbn; auto.
  - intros Hk im H. destruct Hk as [-> | ->]; cbn in H; injection H as <-; destruct pref; reflexivity.
  - intros im H. cbn in H. injection H as <-. reflexivity.
Qed.
Print Assumptions C76_temporality.
Example C76_nonvacuous : temporality_preference KUpDown Delta = Cumulative /\ temporality_preference KCounter LowMemory = Delta.
Proof. auto. Qed.
