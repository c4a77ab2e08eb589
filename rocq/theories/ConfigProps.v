(** Theorems for C84: configuration from the environment and from builders. *)
From Coq Require Import String List NArith ZArith Bool Lia.
From Verif Require Import Str StrProofs F64 ContextModel TraceModel Carrier SamplerModel PropSpec PropProofs
  SamplerSpec SamplerProps ConfigModel.
Import ListNotations.
Local Open Scope N_scope.

(** * Specification *)

(** Variable [name] holds the number [v] (decimal, optional '+', below [bound]). *)
Definition env_holds (env : environment) (name : string) (bound v : N) : Prop :=
  exists s, env (of_string name) = Some s /\ dec_field s v /\ v < bound.
(** What the settings say about one field: the last programmatic value, else
    the variable if it holds a number, else the default. *)
Definition chosen (given : list N) (env : environment) (name : string) (bound default v : N) : Prop :=
  match rev given with
  | x :: _ => v = x
  | [] => env_holds env name bound v \/ ((forall w, ~ env_holds env name bound w) /\ v = default)
  end.
(** The values given to one field by the calls. *)
Fixpoint given {X} (f : X -> option N) (calls : list X) : list N :=
  match calls with
  | [] => []
  | c :: cs => match f c with Some n => n :: given f cs | None => given f cs end
  end.
Definition sets_queue c := match c with WithQueue n => Some n | _ => None end.
Definition sets_delay c := match c with WithDelay n => Some n | _ => None end.
Definition sets_batch c := match c with WithBatch n => Some n | _ => None end.
Definition sets_timeout c := match c with WithTimeout n => Some n | _ => None end.
Definition sets_concurrent c := match c with WithConcurrent n => Some n | _ => None end.

Section tp.
Context {V A : Type}.
Implicit Types c : tp_call V A.
Definition sets_events c := match c with WithMaxEvents n => Some n | WithLimits l => Some (l_events l) | _ => None end.
Definition sets_attrs c := match c with WithMaxAttrs n => Some n | WithLimits l => Some (l_attrs l) | _ => None end.
Definition sets_links c := match c with WithMaxLinks n => Some n | WithLimits l => Some (l_links l) | _ => None end.
Definition sets_event_attrs c := match c with WithMaxEventAttrs n => Some n | WithLimits l => Some (l_event_attrs l) | _ => None end.
Definition sets_link_attrs c := match c with WithMaxLinkAttrs n => Some n | WithLimits l => Some (l_link_attrs l) | _ => None end.
End tp.

(** * Proofs *)

Lemma env_num_some env name b v : 0 < b -> (env_num b env name = Some v <-> env_holds env name b v).
Proof.
  intros Hb. unfold env_num, env_holds. split.
  - destruct (env (of_string name)) as [s|]; [|discriminate]. intros H.
    exists s. split; [reflexivity|]. apply parse_dec_spec; assumption.
  - intros (s & -> & H). apply parse_dec_spec; assumption.
Qed.

(** A field that the calls overwrite and that starts as [or_keep (env_num ..) d]. *)
Lemma field_fold {S X} (apply : S -> X -> S) (f : X -> option N) (get : S -> N)
  (Hf : forall s x, get (apply s x) = match f x with Some n => n | None => get s end) calls s :
  get (fold_left apply calls s) = match rev (given f calls) with x :: _ => x | [] => get s end.
Proof.
  revert s. induction calls as [|c cs IH]; intros s; cbn [fold_left given]; [reflexivity|].
  rewrite IH, Hf. destruct (f c) as [n|]; [|reflexivity]. cbn [rev].
  destruct (rev (given f cs)); reflexivity.
Qed.

Lemma chosen_intro l env name b d : 0 < b ->
  chosen l env name b d (match rev l with x :: _ => x | [] => or_keep (env_num b env name) d end).
Proof.
  intros Hb. unfold chosen. destruct (rev l); [|reflexivity].
  destruct (env_num b env name) as [v|] eqn:E; cbn [or_keep].
  - left. apply env_num_some; assumption.
  - right. split; [|reflexivity]. intros w H. apply env_num_some in H; [congruence|exact Hb].
Qed.

Lemma chosen_unique l env name b d v w : 0 < b -> chosen l env name b d v -> chosen l env name b d w -> v = w.
Proof.
  intros Hb. unfold chosen. destruct (rev l); [|congruence].
  intros [H|[H ->]] [K|[K ->]]; [|exfalso; eapply K; eauto|exfalso; eapply H; eauto|reflexivity].
  apply env_num_some in H; [|exact Hb]. apply env_num_some in K; [|exact Hb]. congruence.
Qed.

Lemma pow64 : 0 < 2 ^ 64. Proof. reflexivity. Qed.
Lemma pow32 : 0 < 2 ^ 32. Proof. reflexivity. Qed.

Ltac field f get := rewrite (field_fold batch_apply f get) by (intros ? []; reflexivity).
Ltac field' f get := rewrite (field_fold tp_apply f get) by (intros ? []; reflexivity).

(** ** Batch processors *)

(** Log processor: every setting is the programmatic one, else the variable,
    else the default, and the batch is the smaller of the chosen batch and
    queue sizes - in any order of calls. *)
Theorem C84_log_batch_settings : forall env calls,
  let b := log_batch env calls in
  chosen (given sets_queue calls) env "OTEL_BLRP_MAX_QUEUE_SIZE" (2 ^ 64) 2048 (b_queue b) /\
  chosen (given sets_delay calls) env "OTEL_BLRP_SCHEDULE_DELAY" (2 ^ 64) 1000 (b_delay b) /\
  chosen (given sets_timeout calls) env "OTEL_BLRP_EXPORT_TIMEOUT" (2 ^ 64) 30000 (b_timeout b) /\
  exists size, chosen (given sets_batch calls) env "OTEL_BLRP_MAX_EXPORT_BATCH_SIZE" (2 ^ 64) 512 size /\
    b_batch b = N.min size (b_queue b).
Proof.
  intros env calls b. subst b. unfold log_batch, batch_build. cbn [b_queue b_delay b_timeout b_batch].
  split; [|split; [|split]].
  - field sets_queue b_queue. apply chosen_intro, pow64.
  - field sets_delay b_delay. apply chosen_intro, pow64.
  - field sets_timeout b_timeout. apply chosen_intro, pow64.
  - eexists. split; [|reflexivity]. field sets_batch b_batch. apply chosen_intro, pow64.
Qed.
Print Assumptions C84_log_batch_settings.

(** Span processor: the same, except that a batch size not set by the program
    is also limited by the queue size the environment (or the default) gives,
    even when the program chooses another queue size. *)
Theorem C84_span_batch_settings : forall env calls,
  let b := span_batch env calls in
  chosen (given sets_queue calls) env "OTEL_BSP_MAX_QUEUE_SIZE" (2 ^ 64) 2048 (b_queue b) /\
  chosen (given sets_delay calls) env "OTEL_BSP_SCHEDULE_DELAY" (2 ^ 64) 5000 (b_delay b) /\
  chosen (given sets_timeout calls) env "OTEL_BSP_EXPORT_TIMEOUT" (2 ^ 64) 30000 (b_timeout b) /\
  chosen (given sets_concurrent calls) env "OTEL_BSP_MAX_CONCURRENT_EXPORTS" (2 ^ 64) 1 (b_concurrent b) /\
  exists size queue0,
    chosen (given sets_batch calls) env "OTEL_BSP_MAX_EXPORT_BATCH_SIZE" (2 ^ 64) 512 size /\
    chosen [] env "OTEL_BSP_MAX_QUEUE_SIZE" (2 ^ 64) 2048 queue0 /\
    b_batch b = (if given sets_batch calls then N.min (N.min size queue0) (b_queue b) else N.min size (b_queue b)).
Proof.
  intros env calls b. subst b. unfold span_batch, batch_build. cbn [b_queue b_delay b_timeout b_batch b_concurrent].
  split; [|split; [|split; [|split]]].
  - field sets_queue b_queue. apply chosen_intro, pow64.
  - field sets_delay b_delay. apply chosen_intro, pow64.
  - field sets_timeout b_timeout. apply chosen_intro, pow64.
  - field sets_concurrent b_concurrent. apply chosen_intro, pow64.
  - eexists _, _. split; [apply chosen_intro, pow64|]. split; [apply chosen_intro, pow64|].
    field sets_batch b_batch. cbn [rev].
    destruct (given sets_batch calls) as [|x l] eqn:E.
    + cbn [rev]. unfold span_batch_default. cbn [b_batch].
      set (q := or_keep _ _). set (s := or_keep _ _). destruct (N.ltb_spec q s); lia.
    + destruct (rev (x :: l)) eqn:R; [|reflexivity].
      apply (f_equal (@length N)) in R. rewrite rev_length in R. discriminate.
Qed.
Print Assumptions C84_span_batch_settings.

(** Whatever the environment and the calls say, a batch fits in the queue. *)
Theorem C84_batch_fits_queue : forall env calls,
  b_batch (span_batch env calls) <= b_queue (span_batch env calls) /\
  b_batch (log_batch env calls) <= b_queue (log_batch env calls).
Proof. intros env calls. unfold span_batch, log_batch, batch_build. cbn [b_batch b_queue]. lia. Qed.
Print Assumptions C84_batch_fits_queue.

(** Refuted: that programmatic settings fully override the environment. With
    OTEL_BSP_MAX_QUEUE_SIZE=100 and with_max_queue_size(2048) the batch size
    remains 100 although nobody asked for it; without the variable it is 512.
    The log processor gives 512 in both cases. *)
Definition env_100 : environment := fun n =>
  if str_eqb n (of_string "OTEL_BSP_MAX_QUEUE_SIZE") || str_eqb n (of_string "OTEL_BLRP_MAX_QUEUE_SIZE")
  then Some (of_string "100") else None.
Theorem C131_overridden_queue_limits_batch_refuted :
  b_queue (span_batch env_100 [WithQueue 2048]) = 2048 /\ b_batch (span_batch env_100 [WithQueue 2048]) = 100 /\
  b_batch (span_batch (fun _ => None) [WithQueue 2048]) = 512 /\
  b_batch (log_batch env_100 [WithQueue 2048]) = 512.
Proof. repeat split; vm_compute; reflexivity. Qed.
Print Assumptions C131_overridden_queue_limits_batch_refuted.

(** ** Span limits *)

Theorem C84_span_limits : forall V A pf one env (calls : list (tp_call V A)),
  let l := c_limits (tp_build pf one env calls) in
  chosen (given sets_events calls) env "OTEL_SPAN_EVENT_COUNT_LIMIT" (2 ^ 32) 128 (l_events l) /\
  chosen (given sets_attrs calls) env "OTEL_SPAN_ATTRIBUTE_COUNT_LIMIT" (2 ^ 32) 128 (l_attrs l) /\
  chosen (given sets_links calls) env "OTEL_SPAN_LINK_COUNT_LIMIT" (2 ^ 32) 128 (l_links l).
Proof.
  intros V A pf one env calls l. subst l. unfold tp_build. split; [|split].
  - rewrite (field_fold tp_apply sets_events (fun c => l_events (c_limits c))) by (intros ? []; reflexivity).
    apply chosen_intro, pow32.
  - rewrite (field_fold tp_apply sets_attrs (fun c => l_attrs (c_limits c))) by (intros ? []; reflexivity).
    apply chosen_intro, pow32.
  - rewrite (field_fold tp_apply sets_links (fun c => l_links (c_limits c))) by (intros ? []; reflexivity).
    apply chosen_intro, pow32.
Qed.
Print Assumptions C84_span_limits.

(** The limits on attributes of events and links come from the program or are
    128; no variable changes them. *)
Theorem C84_event_and_link_attribute_limits : forall V A pf one env (calls : list (tp_call V A)),
  let l := c_limits (tp_build pf one env calls) in
  l_event_attrs l = last (given sets_event_attrs calls) 128 /\
  l_link_attrs l = last (given sets_link_attrs calls) 128.
Proof.
  intros V A pf one env calls l. subst l. unfold tp_build.
  assert (Hlast : forall xs : list N, last xs 128 = match rev xs with x :: _ => x | [] => 128 end).
  { intros xs. destruct xs as [|y ys] using rev_ind; [reflexivity|].
    rewrite last_last, rev_app_distr. reflexivity. }
  rewrite !Hlast. split.
  - rewrite (field_fold tp_apply sets_event_attrs (fun c => l_event_attrs (c_limits c))) by (intros ? []; reflexivity).
    reflexivity.
  - rewrite (field_fold tp_apply sets_link_attrs (fun c => l_link_attrs (c_limits c))) by (intros ? []; reflexivity).
    reflexivity.
Qed.
Print Assumptions C84_event_and_link_attribute_limits.

(** ** The sampler *)

(** The last sampler given by the program wins over the environment. *)
Theorem C84_program_sampler : forall V A pf one env (before after : list (tp_call V A)) s,
  (forall s', ~ In (WithSampler s') after) ->
  c_sampler (tp_build pf one env (before ++ WithSampler s :: after)) = s.
Proof.
  intros V A pf one env before after s Hn. unfold tp_build. rewrite fold_left_app. cbn [fold_left].
  set (c := fold_left tp_apply before (config_default pf one env)). clearbody c.
  assert (H : c_sampler (tp_apply c (WithSampler s)) = s) by reflexivity.
  set (d := tp_apply c (WithSampler s)) in *. clearbody d. clear c.
  revert d H Hn. induction after as [|x l IH]; intros d H Hn; cbn [fold_left]; [exact H|].
  apply IH.
  - destruct x; cbn; try exact H. exfalso. apply (Hn s0). left. reflexivity.
  - intros s' Hin. apply (Hn s'). right. exact Hin.
Qed.
Print Assumptions C84_program_sampler.

Lemma no_sampler_call V A pf one env (calls : list (tp_call V A)) : (forall s', ~ In (WithSampler s') calls) ->
  c_sampler (tp_build pf one env calls) = sampler_from_env pf one env.
Proof.
  unfold tp_build. change (sampler_from_env pf one env) with (c_sampler (@config_default V A pf one env)).
  set (d := config_default pf one env). clearbody d.
  revert d. induction calls as [|x l IH]; intros d Hn; cbn [fold_left]; [reflexivity|].
  rewrite IH.
  - destruct x; try reflexivity. exfalso. apply (Hn s). left. reflexivity.
  - intros s' Hin. apply (Hn s'). right. exact Hin.
Qed.

(** Decisions of the sampler named by the environment when the program gives
    none. [root] is what a span without a parent gets. *)
Definition follows_parent {V A} (root : N -> decision) (s : sampler V A) : Prop :=
  forall p t a, decide s p t a =
    match parent_sc p with
    | Some sc => if N.testbit (sc_flags sc) 0 then RecordAndSample else Drop
    | None => root t
    end.
Definition ignores_parent {V A} (root : N -> decision) (s : sampler V A) : Prop :=
  forall p t a, decide s p t a = root t.
(** The ratio: the argument if it is a number, else 1. *)
Definition ratio_of (pf : str -> option f64) (one : f64) (env : environment) (r : f64) : Prop :=
  (exists s, env (of_string "OTEL_TRACES_SAMPLER_ARG") = Some s /\ pf s = Some r) \/
  ((forall s x, env (of_string "OTEL_TRACES_SAMPLER_ARG") = Some s -> pf s = Some x -> False) /\ r = one).
Definition named (env : environment) (s : string) : Prop := env (of_string "OTEL_TRACES_SAMPLER") = Some (of_string s).

Lemma ratio_of_unique pf one env r r' : ratio_of pf one env r -> ratio_of pf one env r' -> r = r'.
Proof.
  intros [(s & H & H')|[H ->]] [(s2 & K & K')|[K ->]]; [congruence| | |reflexivity].
  - exfalso. eapply K; eauto.
  - exfalso. eapply H; eauto.
Qed.
Lemma sampler_ratio_ok pf one env : ratio_of pf one env (sampler_ratio pf one (env (of_string "OTEL_TRACES_SAMPLER_ARG"))).
Proof.
  unfold ratio_of, sampler_ratio. destruct (env _) as [s|]; [destruct (pf s) as [x|] eqn:E|].
  - left. exists s. auto.
  - right. split; [|reflexivity]. intros s' x [= <-] H. congruence.
  - right. split; [|reflexivity]. intros s' x H. discriminate.
Qed.
Lemma follows_pb V A (d : sampler V A) root : ignores_parent root d -> follows_parent root (ParentBased d).
Proof.
  intros H p t a. destruct (parent_sc p) as [sc|] eqn:E.
  - destruct p as [cx|]; [|discriminate]. exact (C22_parent_decides V A d cx sc t a E).
  - etransitivity; [exact (C22_root_delegates V A d p t a E)|apply H].
Qed.

Theorem C84_env_sampler : forall V A pf one env (calls : list (tp_call V A)) r,
  (forall s, ~ In (WithSampler s) calls) -> ratio_of pf one env r ->
  let s := c_sampler (tp_build pf one env calls) in
  let on := fun _ : N => RecordAndSample in
  let off := fun _ : N => Drop in
  let ratio := fun t => decide (@TraceIdRatioBased V unit r) None t tt in
  (named env "always_on" -> ignores_parent on s) /\
  (named env "always_off" -> ignores_parent off s) /\
  (named env "traceidratio" -> ignores_parent ratio s) /\
  (named env "parentbased_always_off" -> follows_parent off s) /\
  (named env "parentbased_traceidratio" -> follows_parent ratio s) /\
  (* parentbased_always_on, unset, and every name that is not supported *)
  ((~ named env "always_on" /\ ~ named env "always_off" /\ ~ named env "traceidratio" /\
    ~ named env "parentbased_always_off" /\ ~ named env "parentbased_traceidratio") -> follows_parent on s).
Proof.
  intros V A pf one env calls r Hn Hr s on off ratio. subst s. rewrite no_sampler_call by exact Hn.
  pose proof (ratio_of_unique _ _ _ _ _ Hr (sampler_ratio_ok pf one env)) as ->. clear Hr Hn.
  unfold sampler_from_env, named.
  split; [|split; [|split; [|split; [|split]]]].
  - intros ->. intros p t a. reflexivity.
  - intros ->. intros p t a. reflexivity.
  - intros ->. intros p t a. reflexivity.
  - intros ->. apply (follows_pb V A AlwaysOff off). intros p t a. reflexivity.
  - intros ->. apply (follows_pb V A (TraceIdRatioBased _) ratio). intros p t a. reflexivity.
  - intros (H1 & H2 & H3 & H4 & H5). assert (G : follows_parent on (ParentBased (@AlwaysOn V A))).
    { apply follows_pb. intros p t a. reflexivity. }
    destruct (env (of_string "OTEL_TRACES_SAMPLER")) as [n|]; [|exact G].
    assert (Hx : forall m, Some n <> Some (of_string m) -> str_eqb n (of_string m) = false).
    { intros m Hm. apply str_eqb_neq. congruence. }
    rewrite (Hx _ H1), (Hx _ H2), (Hx _ H3), (Hx _ H4), (Hx _ H5). destruct (str_eqb _ _); exact G.
Qed.
Print Assumptions C84_env_sampler.

(** An invalid number, an empty value or a number that is too large is as good
    as no variable. *)
Theorem C84_invalid_number_ignored : forall V A pf one env env' (calls : list (tp_call V A)) bcalls,
  (forall name bound v, env_holds env name bound v <-> env_holds env' name bound v) ->
  env (of_string "OTEL_TRACES_SAMPLER") = env' (of_string "OTEL_TRACES_SAMPLER") ->
  env (of_string "OTEL_TRACES_SAMPLER_ARG") = env' (of_string "OTEL_TRACES_SAMPLER_ARG") ->
  tp_build pf one env calls = tp_build pf one env' calls /\
  span_batch env bcalls = span_batch env' bcalls /\ log_batch env bcalls = log_batch env' bcalls.
Proof.
  intros V A pf one env env' calls bcalls H H1 H2.
  assert (G : forall b name, 0 < b -> env_num b env name = env_num b env' name).
  { intros b name Hb. destruct (env_num b env name) as [v|] eqn:E.
    - symmetry. apply env_num_some; [exact Hb|]. apply H. apply env_num_some; assumption.
    - destruct (env_num b env' name) as [v|] eqn:E'; [|reflexivity].
      apply env_num_some in E'; [|exact Hb]. apply H in E'. apply env_num_some in E'; [congruence|exact Hb]. }
  split; [|split].
  - unfold tp_build. f_equal. unfold config_default, sampler_from_env. rewrite H1, H2, !(G _ _ pow32). reflexivity.
  - unfold span_batch. do 2 f_equal. unfold span_batch_default. rewrite !(G _ _ pow64). reflexivity.
  - unfold log_batch. do 2 f_equal. unfold log_batch_default. rewrite !(G _ _ pow64). reflexivity.
Qed.
Print Assumptions C84_invalid_number_ignored.

(** ** Periodic readers: the last interval (or timeout) other than zero given by the
    program, else the variable, else a minute (half a minute). *)
Definition sets_interval c := match c with WithInterval n => if n =? 0 then None else Some n | _ => None end.
Definition sets_export_timeout c := match c with WithExportTimeout n => if n =? 0 then None else Some n | _ => None end.
Theorem C84_reader_settings : forall env calls,
  chosen (given sets_interval calls) env "OTEL_METRIC_EXPORT_INTERVAL" (2 ^ 64) 60000 (r_interval (reader_build env calls)) /\
  chosen (given sets_export_timeout calls) env "OTEL_METRIC_EXPORT_TIMEOUT" (2 ^ 64) 30000 (r_timeout (reader_build env calls)).
Proof.
  intros env calls. unfold reader_build. split.
  - rewrite (field_fold reader_apply sets_interval r_interval) by (intros ? []; cbn; try destruct (_ =? _); reflexivity). apply chosen_intro, pow64.
  - rewrite (field_fold reader_apply sets_export_timeout r_timeout) by (intros ? []; cbn; try destruct (_ =? _); reflexivity). apply chosen_intro, pow64.
Qed.
Print Assumptions C84_reader_settings.

(** A zero never comes from the program... *)
Lemma given_nonzero calls x : In x (given sets_interval calls) -> x <> 0.
Proof.
  induction calls as [|c cs IH]; [intros []|]. cbn [given]. destruct (sets_interval c) eqn:E; [|exact IH]. intros [<-|H]; [|auto].
  destruct c as [m|]; cbn in E; [|discriminate]. destruct (N.eqb_spec m 0); [discriminate|congruence].
Qed.
Theorem C84_zero_interval : forall env calls, r_interval (reader_build env calls) = 0 ->
  given sets_interval calls = [] /\ env_holds env "OTEL_METRIC_EXPORT_INTERVAL" (2 ^ 64) 0.
Proof.
  intros env calls H. destruct (C84_reader_settings env calls) as [X _]. rewrite H in X. unfold chosen in X.
  destruct (rev (given sets_interval calls)) as [|x l] eqn:E.
  - split; [rewrite <- (rev_involutive (given sets_interval calls)), E; reflexivity|]. destruct X as [X|[_ X]]; [exact X|discriminate].
  - exfalso. apply (given_nonzero calls x); [|symmetry; exact X]. apply in_rev. rewrite E. left. reflexivity.
Qed.
Print Assumptions C84_zero_interval.
(** ... but the variable is not checked: with 0 the reader collects and exports without
    pause, and [with_interval(0)], documented to give a minute, keeps it. *)
Definition env_zero : environment := fun n => if str_eqb n (of_string "OTEL_METRIC_EXPORT_INTERVAL") then Some (of_string "0") else None.
Theorem C152_zero_interval_refuted : exists env calls, In (WithInterval 0) calls /\ r_interval (reader_build env calls) = 0.
Proof. exists env_zero, [WithInterval 0]. split; [left; reflexivity|vm_compute; reflexivity]. Qed.
Print Assumptions C152_zero_interval_refuted.
Example C84_reader_nonvacuous :
  reader_build env_zero [WithExportTimeout 7; WithInterval 0; WithInterval 9; WithInterval 0] = mk_reader 9 7 /\ reader_build (fun _ => None) [] = mk_reader 60000 30000.
Proof. split; vm_compute; reflexivity. Qed.

(** Non-vacuity: a variable, a programmatic override and an invalid number. *)
Definition env_mixed : environment := fun n =>
  if str_eqb n (of_string "OTEL_SPAN_EVENT_COUNT_LIMIT") then Some (of_string "+7")
  else if str_eqb n (of_string "OTEL_SPAN_LINK_COUNT_LIMIT") then Some (of_string "4294967296")
  else if str_eqb n (of_string "OTEL_SPAN_ATTRIBUTE_COUNT_LIMIT") then Some (of_string " 5")
  else if str_eqb n (of_string "OTEL_TRACES_SAMPLER") then Some (of_string "ALWAYS_OFF")
  else None.
Example C84_nonvacuous : forall pf one,
  let c := @tp_build unit unit pf one env_mixed [WithMaxEventAttrs 3] in
  c_limits c = mk_limits 7 128 128 3 128 /\ c_sampler c = ParentBased AlwaysOn /\
  l_events (c_limits (@tp_build unit unit pf one env_mixed [WithMaxEvents 9; WithMaxLinks 1; WithMaxEvents 8])) = 8 /\
  env_holds env_mixed "OTEL_SPAN_EVENT_COUNT_LIMIT" (2 ^ 32) 7 /\
  b_batch (log_batch (fun _ => None) [WithBatch 600; WithQueue 50]) = 50.
Proof.
  intros pf one. split; [|split; [|split; [|split]]]; try (vm_compute; reflexivity).
  apply env_num_some; [reflexivity|vm_compute; reflexivity].
Qed.
