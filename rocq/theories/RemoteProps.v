(** C160-C162: the Jaeger remote sampler over any history of fetches, handles and spans. *)
From Coq Require Import String List NArith ZArith Bool Lia.
From Coq Require Import ZifyBool ZifyNat ZifyN.
From Verif Require Import Str StrProofs F64 F64Proofs BaggageModel SamplerModel SamplerSpec SamplerProofs JsonModel RemoteModel.
Import ListNotations.
Local Open Scope Z_scope.

(** * What is in force
    A plan is what an answer asks for: probabilities by operation with a default, a rate,
    or one probability; said in this order of preference.  The last answer that could be
    read counts. *)
Inductive plan := ByOperation (dflt : f64) (table : list (str * f64)) | AtRate (r : f64) | WithProbability (p : f64).
Definition asked_for (r : response) : option plan :=
  match rs_operation r with
  | Some o => Some (ByOperation (po_default o) (po_ops o))
  | None => match rs_rate r with
            | Some z => Some (AtRate (f64_of_Z z))
            | None => option_map WithProbability (rs_prob r)
            end
  end.
Definition answers (acts : list ract) : list answer := flat_map (fun a => match a with Fetched _ x => [x] | _ => [] end) acts.
Definition readable (a : answer) : list response := match request_new_strategy a with Some r => [r] | None => [] end.
Definition in_force (acts : list ract) : option plan :=
  match rev (flat_map readable (answers acts)) with r :: _ => asked_for r | [] => None end.
Definition plan_of (s : strategy) : plan :=
  match s with
  | PerOperation o => ByOperation (po_default o) (po_ops o)
  | RateLimiting b => AtRate (lb_rate b)
  | Probabilistic p => WithProbability p
  end.

Lemma plan_update size now old r : option_map plan_of (js_update size now old r) = asked_for r.
Proof.
  destruct r as [[o|] [z|] [p|]]; destruct old as [[q|b|q]|]; reflexivity.
Qed.
Lemma lb_check_rate b now : lb_rate (snd (lb_check b now)) = lb_rate b.
Proof.
  unfold lb_check. destruct (f64_leb _ (lb_available b)); [reflexivity|]. destruct (now <? lb_last b); [reflexivity|].
  cbv zeta. destruct (f64_leb _ _); reflexivity.
Qed.
Lemma plan_decide s now t name : option_map plan_of (snd (js_decide s now t name)) = option_map plan_of s.
Proof.
  destruct s as [[p|b|o]|]; try reflexivity. cbn [js_decide]. pose proof (lb_check_rate b now) as H.
  destruct (lb_check b now) as [ok b']. cbn [snd option_map plan_of] in *. congruence.
Qed.

(** One step after another. *)
Lemma run_app size a : forall w b, r_run size w (a ++ b) =
  match r_run size w a with
  | Some (w1, o1) => match r_run size w1 b with Some (w2, o2) => Some (w2, o1 ++ o2) | None => None end
  | None => None
  end.
Proof.
  induction a as [|x a IH]; intros w b; cbn [List.app r_run].
  - destruct (r_run size w b) as [[w2 o2]|]; reflexivity.
  - destruct (r_step size w x) as [[w1 o1]|]; [|reflexivity]. rewrite IH. destruct (r_run size w1 a) as [[w2 o2]|]; [|reflexivity].
    destruct (r_run size w2 b) as [[w3 o3]|]; [|reflexivity]. rewrite app_assoc. reflexivity.
Qed.
Lemma in_force_snoc acts a : in_force (acts ++ [a]) =
  match a with Fetched _ x => match request_new_strategy x with Some r => asked_for r | None => in_force acts end | _ => in_force acts end.
Proof.
  unfold in_force, answers. rewrite !flat_map_app. destruct a as [| | |now x| |now t name]; cbn [flat_map]; rewrite ?app_nil_r; try reflexivity.
  cbn [flat_map]. rewrite app_nil_r. assert (E : readable x = match request_new_strategy x with Some r => [r] | None => [] end) by reflexivity. rewrite E.
  destruct (request_new_strategy x) as [r|].
  - rewrite rev_app_distr. reflexivity.
  - rewrite app_nil_r. reflexivity.
Qed.

(** Whatever happened, the strategy is the one asked for by the last answer that could be
    read: failed fetches, other statuses than 200 and unreadable bodies change nothing. *)
Theorem C160_last_answer_in_force : forall size acts w outs, r_run size r_start acts = Some (w, outs) ->
  option_map plan_of (rw_strategy w) = in_force acts.
Proof.
  intros size acts. induction acts as [|a acts IH] using rev_ind; intros w outs H.
  - injection H as <- <-. reflexivity.
  - rewrite run_app in H. destruct (r_run size r_start acts) as [[w1 o1]|] eqn:E; [|discriminate]. specialize (IH w1 o1 eq_refl).
    cbn [r_run] in H. destruct (r_step size w1 a) as [[w2 o2]|] eqn:Es; [|discriminate]. injection H as -> _.
    rewrite in_force_snoc. destruct a as [| | |now x| |now t name]; cbn [r_step] in Es.
    + destruct (rw_handles w1); [discriminate|]. injection Es as <- _. exact IH.
    + destruct (rw_handles w1); [discriminate|]. injection Es as <- _. exact IH.
    + destruct (rw_task w1); try discriminate. injection Es as <- _. exact IH.
    + destruct (rw_task w1); try discriminate. injection Es as <- _. destruct (request_new_strategy x) as [r|]; [|exact IH].
      cbn [with_task with_strategy rw_strategy]. apply plan_update.
    + destruct (rw_task w1); try discriminate. destruct (rw_stop w1); [|discriminate]. injection Es as <- _. exact IH.
    + destruct (rw_handles w1); [discriminate|]. pose proof (plan_decide (rw_strategy w1) now t name) as P.
      destruct (js_decide (rw_strategy w1) now t name) as [d s]. injection Es as <- _. cbn [snd with_strategy rw_strategy] in *. congruence.
Qed.
Print Assumptions C160_last_answer_in_force.

(** So the decision about a span follows from the answers so far: the default sampler's
    before the first, then by the probability of its operation or the common one. *)
Fixpoint last_for (name : str) (table : list (str * f64)) (dflt : f64) : f64 :=
  match table with
  | [] => dflt
  | (n, p) :: table => last_for name table (if str_eqb n name then p else dflt)
  end.
Lemma last_for_find name table : forall d, last_for name table d = match po_find table name with Some q => q | None => d end.
Proof.
  induction table as [|[n p] table IH]; intros d; [reflexivity|]. cbn [last_for po_find]. rewrite IH.
  destruct (po_find table name); [reflexivity|]. destruct (str_eqb n name); reflexivity.
Qed.
Theorem C160_decisions : forall size acts w outs now t name w' o dflt,
  r_run size r_start acts = Some (w, outs) -> r_step size w (Ask now t name) = Some (w', o) ->
  exists d, o = [d] /\
  match in_force acts with
  | None => r_decision dflt d = dflt
  | Some (WithProbability p) => r_decision dflt d = sample_prob p t
  | Some (ByOperation q table) => r_decision dflt d = sample_prob (last_for name table q) t
  | Some (AtRate _) => d = Some RecordAndSample \/ d = Some Drop
  end.
Proof.
  intros size acts w outs now t name w' o dflt H Hs. rewrite <- (C160_last_answer_in_force size acts w outs H).
  cbn [r_step] in Hs. destruct (rw_handles w); [discriminate|]. destruct (rw_strategy w) as [[p|b|q]|]; cbn [js_decide option_map plan_of] in *.
  - injection Hs as <- <-. eexists. split; reflexivity.
  - destruct (lb_check b now) as [ok b']. injection Hs as <- <-. eexists. split; [reflexivity|]. destruct ok; auto.
  - injection Hs as <- <-. eexists. split; [reflexivity|]. cbn [r_decision]. unfold po_probability. rewrite last_for_find. reflexivity.
  - injection Hs as <- <-. eexists. split; reflexivity.
Qed.
Print Assumptions C160_decisions.

(** * The limit over changing rates *)
Definition time_of (a : ract) : list Z := match a with Fetched now _ => [now] | Ask now _ _ => [now] | _ => [] end.
Definition sampled (outs : list (option decision)) : Z :=
  Z.of_nat (length (filter (fun d => match d with Some RecordAndSample => true | _ => false end) outs)).
Definition limited (t0 size R now n : Z) (s : option strategy) : Prop :=
  match s with
  | None => n = 0
  | Some (RateLimiting b) => exists t, bucket_is b t /\ tk_ok t /\ tk_rate t <= R /\ tk_size t = size /\ t0 <= tk_last t <= now /\
      n + tk_available t <= size + R * ((tk_last t - t0) / 10 ^ 9)
  | _ => False
  end.
Lemma sampled_app a b : sampled (a ++ b) = sampled a + sampled b.
Proof. unfold sampled. rewrite filter_app, app_length. lia. Qed.
Lemma limited_later t0 size R now now' n s : now <= now' -> limited t0 size R now n s -> limited t0 size R now' n s.
Proof.
  intros H. destruct s as [[p|b|q]|]; cbn [limited]; auto. intros (t & A & B & C & D & E & F).
  exists t. repeat (split; [first [assumption|lia]|]). assumption.
Qed.

(** While all answers ask for rates of at most [R], whatever the changes, at most
    [size + R * whole seconds] spans are sampled by them. *)
Theorem C160_limit_over_changes : forall size R t0 T acts w outs, 0 <= R < 2 ^ 31 -> 0 <= size <= 2 ^ 53 ->
  r_run (f64_of_Z size) r_start acts = Some (w, outs) ->
  (forall r, In r (flat_map readable (answers acts)) -> rs_operation r = None /\ rs_prob r = None /\ exists z, rs_rate r = Some z /\ 0 <= z <= R) ->
  forward t0 (flat_map time_of acts) -> (forall x, In x (flat_map time_of acts) -> x <= T) -> t0 <= T < t0 + 2 ^ 53 * 10 ^ 9 ->
  sampled outs <= size + R * ((T - t0) / 10 ^ 9).
Proof.
  intros size R t0 T acts w outs HR Hsz Hrun Hans Hf HT HT2.
  assert (G : forall acts w0 now n, t0 <= now <= T -> limited t0 size R now n (rw_strategy w0) -> 0 <= n ->
    r_run (f64_of_Z size) w0 acts = Some (w, outs) ->
    (forall r, In r (flat_map readable (answers acts)) -> rs_operation r = None /\ rs_prob r = None /\ exists z, rs_rate r = Some z /\ 0 <= z <= R) ->
    forward now (flat_map time_of acts) -> (forall x, In x (flat_map time_of acts) -> x <= T) ->
    exists now', now <= now' <= T /\ limited t0 size R now' (n + sampled outs) (rw_strategy w)).
  { clear Hrun Hans Hf HT acts. intros acts. revert outs.
    induction acts as [|a acts IH]; intros outs w0 now n Hn Hl Hn0 Hrun Hans Hf HT.
    - injection Hrun as <- <-. exists now. split; [lia|]. unfold sampled. cbn [filter length]. rewrite Z.add_0_r. exact Hl.
    - cbn [r_run] in Hrun. destruct (r_step (f64_of_Z size) w0 a) as [[w1 o1]|] eqn:Es; [|discriminate].
      destruct (r_run (f64_of_Z size) w1 acts) as [[w2 o2]|] eqn:Er; [|discriminate]. injection Hrun as -> <-.
      assert (S : exists now1, now <= now1 <= T /\ forward now1 (flat_map time_of acts) /\ limited t0 size R now1 (n + sampled o1) (rw_strategy w1)).
      { destruct a as [| | |nw x| |nw tr name]; cbn [r_step] in Es; cbn [flat_map time_of List.app] in Hf, HT.
        - destruct (rw_handles w0); [discriminate|]. injection Es as <- <-. exists now. rewrite Z.add_0_r. split; [lia|]. split; [exact Hf|exact Hl].
        - destruct (rw_handles w0); [discriminate|]. injection Es as <- <-. exists now. rewrite Z.add_0_r. split; [lia|]. split; [exact Hf|exact Hl].
        - destruct (rw_task w0); try discriminate. injection Es as <- <-. exists now. rewrite Z.add_0_r. split; [lia|]. split; [exact Hf|exact Hl].
        - destruct (rw_task w0); try discriminate. injection Es as <- <-. destruct Hf as [Hf1 Hf2]. pose proof (HT nw (or_introl eq_refl)) as Hnw.
          exists nw. rewrite Z.add_0_r. split; [lia|]. split; [exact Hf2|]. 
          destruct (request_new_strategy x) as [r|] eqn:Ex; [|exact (limited_later _ _ _ _ _ _ _ Hf1 Hl)].
          cbn [with_task with_strategy rw_strategy].
          assert (Hr : rs_operation r = None /\ rs_prob r = None /\ exists z, rs_rate r = Some z /\ 0 <= z <= R).
          { apply Hans. unfold answers. cbn [flat_map List.app]. apply in_or_app. left. unfold readable. rewrite Ex. left. reflexivity. }
          destruct r as [ro rr rp]. cbn [rs_operation rs_prob rs_rate] in Hr. destruct Hr as (-> & -> & z & -> & Hz).
          destruct (rw_strategy w0) as [[p|b|q]|]; cbn [limited] in Hl; try contradiction; cbn [js_update init_strategy rs_operation rs_rate rs_prob limited].
          + destruct Hl as (t & (B1 & B2 & B3 & B4) & (O1 & O2 & O3) & C & D & E & F).
            exists (mk_tokens z (tk_available t) (tk_size t) (tk_last t)). unfold bucket_is, tk_ok, lb_update.
            cbn [tk_rate tk_available tk_size tk_last lb_rate lb_available lb_size lb_last].
            split; [split; [apply holds_of_Z; lia|]; auto|]. split; [lia|]. split; [lia|]. split; [exact D|]. split; [lia|]. exact F.
          + exists (mk_tokens z size size nw). unfold bucket_is, tk_ok, lb_new.
            cbn [tk_rate tk_available tk_size tk_last lb_rate lb_available lb_size lb_last].
            split; [repeat split; apply holds_of_Z; lia|]. split; [lia|]. split; [lia|]. split; [reflexivity|]. split; [lia|].
            assert (0 <= (nw - t0) / 10 ^ 9) by (apply Z.div_pos; lia). nia.
        - destruct (rw_task w0); try discriminate. destruct (rw_stop w0); [|discriminate]. injection Es as <- <-. exists now. rewrite Z.add_0_r. split; [lia|]. split; [exact Hf|exact Hl].
        - destruct (rw_handles w0); [discriminate|]. destruct Hf as [Hf1 Hf2]. pose proof (HT nw (or_introl eq_refl)) as Hnw.
          destruct (rw_strategy w0) as [[p|b|q]|]; cbn [limited] in Hl; try contradiction; cbn [js_decide] in Es.
          + destruct Hl as (t & B & O & C & D & E & F). pose proof (lb_refines b t nw B O ltac:(lia)) as G.
            destruct (lb_check b nw) as [ok b']. destruct (tk_poll t nw) as [ok' t'] eqn:Ep. destruct G as (<- & B' & O').
            destruct (tk_bound t nw ok t' O Ep ltac:(lia)) as (L1 & Er' & Es' & L2). injection Es as <- <-.
            exists nw. split; [lia|]. split; [exact Hf2|]. cbn [with_strategy rw_strategy limited]. exists t'.
            split; [exact B'|]. split; [exact O'|]. split; [lia|]. split; [lia|]. split; [lia|].
            assert (Hsam : sampled [Some (if ok then RecordAndSample else Drop)] = if ok then 1 else 0) by (destruct ok; reflexivity).
            rewrite Hsam. pose proof (div_add_le (tk_last t - t0) (tk_last t' - tk_last t) (10 ^ 9) ltac:(lia)) as Hd.
            replace (tk_last t - t0 + (tk_last t' - tk_last t)) with (tk_last t' - t0) in Hd by lia.
            assert (0 <= (tk_last t' - tk_last t) / 10 ^ 9) by (apply Z.div_pos; lia). destruct O as (Or & _). nia.
          + injection Es as <- <-. exists nw. split; [lia|]. split; [exact Hf2|]. cbn [with_strategy rw_strategy limited sampled filter length]. unfold sampled. cbn. lia. }
      destruct S as (now1 & Hn1 & Hf1 & Hl1).
      assert (Hs0 : 0 <= sampled o1) by (unfold sampled; lia).
      destruct (IH o2 w1 now1 (n + sampled o1) ltac:(lia) Hl1 ltac:(lia) Er) as (now' & H1 & H2); [| exact Hf1 | |].
      + intros r Hr. apply Hans. unfold answers in *. cbn [flat_map]. rewrite flat_map_app. apply in_or_app. right. exact Hr.
      + intros x Hx. apply HT. cbn [flat_map]. apply in_or_app. right. exact Hx.
      + exists now'. split; [lia|]. rewrite sampled_app, Z.add_assoc. exact H2. }
  destruct (G acts r_start t0 0 ltac:(lia) eq_refl ltac:(lia) Hrun Hans Hf HT) as (now' & Hn' & Hl).
  assert (Hq : 0 <= (T - t0) / 10 ^ 9) by (apply Z.div_pos; lia).
  destruct (rw_strategy w) as [[p|b|q]|]; cbn [limited] in Hl; try contradiction; [|nia].
  destruct Hl as (t & _ & (O1 & O2 & O3) & _ & _ & E & F).
  assert ((tk_last t - t0) / 10 ^ 9 <= (T - t0) / 10 ^ 9) by (apply Z.div_le_mono; lia). nia.
Qed.
Print Assumptions C160_limit_over_changes.

(** * Answers
    What a document says, by its fields in any order; other fields may be there too. *)
Definition has (l : list (str * json)) (k : string) (j : json) : Prop := In (of_string k, j) l.
Definition absent (l : list (str * json)) (k : string) : Prop := forall j, ~ has l k j.
Definition record_ (j : json) (l : list (str * json)) : Prop := j = JObj l /\ NoDup (map fst l).
Definition number (j : json) (f : f64) : Prop := j = JFloat f \/ exists z, j = JInt z /\ f = f64_of_Z z.
Definition says_number (l : list (str * json)) (k : string) (f : f64) : Prop := exists j, has l k j /\ number j f.
Definition says_prob (j : json) (p : f64) : Prop := exists l, record_ j l /\ says_number l "samplingRate" p.
Definition says_rate (j : json) (z : Z) : Prop := exists l, record_ j l /\ has l "maxTracesPerSecond" (JInt z) /\ - 2 ^ 31 <= z < 2 ^ 31.
Definition says_op (j : json) (op : str * f64) : Prop :=
  exists l, record_ j l /\ has l "operation" (JStr (fst op)) /\ exists p, has l "probabilisticSampling" p /\ says_prob p (snd op).
Definition says_ops (j : json) (o : per_op) : Prop :=
  exists l, record_ j l /\ says_number l "defaultSamplingProbability" (po_default o) /\
    (exists f, says_number l "defaultLowerBoundTracesPerSecond" f) /\ (exists f, says_number l "defaultUpperBoundTracesPerSecond" f) /\
    exists js, has l "perOperationStrategies" (JArr js) /\ Forall2 says_op js (po_ops o).
Definition maybe {A} (l : list (str * json)) (k : string) (says : json -> A -> Prop) (o : option A) : Prop :=
  match o with
  | None => absent l k \/ has l k JNull
  | Some x => exists j, has l k j /\ says j x
  end.

Lemma get_has l k j : NoDup (map fst l) -> has l k j -> get k l = Some (Some j).
Proof.
  intros Hn Hin. unfold get, has in *. induction l as [|[k' j'] l IH]; [destruct Hin|]. cbn [map fst] in Hn. inversion Hn as [|? ? Hni Hn']; subst.
  cbn [filter fst]. destruct (str_eqb_spec k' (of_string k)) as [->|Hne].
  - destruct Hin as [[= ->]|Hin]; [|exfalso; apply Hni; apply (in_map fst) in Hin; exact Hin].
    assert (E : filter (fun kv => str_eqb (fst kv) (of_string k)) l = []).
    { clear -Hni. induction l as [|[k2 j2] l IH]; [reflexivity|]. cbn [map fst] in Hni. cbn [filter fst].
      destruct (str_eqb_spec k2 (of_string k)) as [->|_]; [exfalso; apply Hni; left; reflexivity|]. apply IH. intros X. apply Hni. right. exact X. }
    rewrite E. reflexivity.
  - destruct Hin as [[= E _]|Hin]; [congruence|]. apply IH; assumption.
Qed.
Lemma get_absent l k : absent l k -> get k l = Some None.
Proof.
  intros H. unfold get. assert (E : filter (fun kv => str_eqb (fst kv) (of_string k)) l = []); [|rewrite E; reflexivity].
  unfold absent, has in H. induction l as [|[k2 j2] l IH]; [reflexivity|]. cbn [filter fst].
  destruct (str_eqb_spec k2 (of_string k)) as [->|_]; [exfalso; apply (H j2); left; reflexivity|]. apply IH. intros j X. apply (H j). right. exact X.
Qed.
Lemma req_has {A} l k j (de : json -> option A) x : NoDup (map fst l) -> has l k j -> de j = Some x -> req k de l = Some x.
Proof. intros Hn Hh Hd. unfold req. rewrite (get_has l k j Hn Hh). exact Hd. Qed.
Lemma number_read j f : number j f -> de_f64 j = Some f.
Proof. intros [->|(z & -> & ->)]; reflexivity. Qed.
Lemma req_number l k f : NoDup (map fst l) -> says_number l k f -> req k de_f64 l = Some f.
Proof. intros Hn (j & Hh & Hf). exact (req_has l k j de_f64 f Hn Hh (number_read j f Hf)). Qed.
Lemma prob_read j p : says_prob j p -> de_prob j = Some p.
Proof. intros (l & [-> Hn] & H). exact (req_number l _ p Hn H). Qed.
Lemma rate_read j z : says_rate j z -> de_rate j = Some z.
Proof.
  intros (l & [-> Hn] & H & Hz). unfold de_rate, obj. refine (req_has l _ _ de_i32 z Hn H _). unfold de_i32, de_int.
  destruct (Z.leb_spec (- 2 ^ 31) z); [|lia]. destruct (Z.ltb_spec z (2 ^ 31)); [reflexivity|lia].
Qed.
Lemma op_read j op : says_op j op -> de_op j = Some op.
Proof.
  intros (l & [-> Hn] & H1 & p & H2 & H3). unfold de_op, obj.
  rewrite (req_has l _ _ de_str (fst op) Hn H1 eq_refl), (req_has l _ _ de_prob (snd op) Hn H2 (prob_read p _ H3)). destruct op; reflexivity.
Qed.
Lemma ops_read j o : says_ops j o -> de_ops j = Some o.
Proof.
  intros (l & [-> Hn] & H1 & (f2 & H2) & (f3 & H3) & js & H4 & H5). unfold de_ops, obj.
  rewrite (req_number l _ _ Hn H1), (req_number l _ _ Hn H2), (req_number l _ _ Hn H3).
  rewrite (req_has l _ _ (de_list de_op) (po_ops o) Hn H4); [destruct o; reflexivity|]. unfold de_list.
  clear -H5. induction H5 as [|j op js ops Hj _ IH]; [reflexivity|]. cbn [map OtlpModel.all_some]. rewrite (op_read j op Hj), IH. reflexivity.
Qed.
Lemma maybe_read {A} l k (says : json -> A -> Prop) (de : json -> option A) o : NoDup (map fst l) -> (forall j x, says j x -> de j = Some x) -> (forall x, ~ says JNull x) ->
  maybe l k says o -> dft k (de_option de) None l = Some o.
Proof.
  intros Hn Hd Hnull H. unfold dft. destruct o as [x|]; cbn [maybe] in H.
  - destruct H as (j & Hh & Hs). rewrite (get_has l k j Hn Hh). unfold de_option. rewrite (Hd j x Hs). destruct j; try reflexivity. exfalso. exact (Hnull x Hs).
  - destruct H as [H|H]; [rewrite (get_absent l k H); reflexivity|rewrite (get_has l k _ Hn H); reflexivity].
Qed.

(** An answer of status 200 with one of the two known types is understood as it says. *)
Theorem C160_answers_read : forall l ty o r p, NoDup (map fst l) ->
  has l "strategyType" (JStr ty) -> ty = of_string "PROBABILISTIC" \/ ty = of_string "RATELIMITING" ->
  maybe l "operationSampling" says_ops o -> maybe l "rateLimitingSampling" says_rate r -> maybe l "probabilisticSampling" says_prob p ->
  request_new_strategy (Answer 200 (Some (JObj l))) = Some (mk_response o r p).
Proof.
  intros l ty o r p Hn Ht Hty Ho Hr Hp. cbn [request_new_strategy N.eqb Pos.eqb]. unfold de_response, obj.
  assert (exists b, de_type (JStr ty) = Some b) as [b Hb] by (destruct Hty as [->| ->]; eexists; reflexivity).
  rewrite (req_has l _ _ de_type b Hn Ht Hb).
  rewrite (maybe_read l _ says_prob de_prob p Hn prob_read) by first [exact Hp | intros x (l' & [H _] & _); discriminate H].
  rewrite (maybe_read l _ says_rate de_rate r Hn rate_read) by first [exact Hr | intros x (l' & [H _] & _); discriminate H].
  rewrite (maybe_read l _ says_ops de_ops o Hn ops_read) by first [exact Ho | intros x (l' & [H _] & _); discriminate H].
  reflexivity.
Qed.
Print Assumptions C160_answers_read.
(** Nothing else is taken for an answer: another status, no document, no known type. *)
Theorem C160_nothing_else_read : forall status body r, request_new_strategy (Answer status body) = Some r ->
  status = 200%N /\ exists l b, body = Some (JObj l) /\ req "strategyType" de_type l = Some b.
Proof.
  intros status body r H. cbn [request_new_strategy] in H. destruct (N.eqb_spec status 200) as [E|]; [|discriminate]. split; [exact E|].
  destruct body as [[]|]; try discriminate. unfold de_response, obj in H. destruct (req "strategyType" de_type l) as [b|] eqn:Eb; [|discriminate]. eauto.
Qed.
Print Assumptions C160_nothing_else_read.

(** ** Answers of the Jaeger sampling API
    Jaeger's sampling.proto calls the types PROBABILISTIC and RATE_LIMITING, says that
    clients ignore the type, gives the rates as whole numbers, and makes every number of
    the strategies per operation optional (zero when left out). *)
Definition jaeger_answer (l : list (str * json)) : Prop :=
  NoDup (map fst l) /\
  (absent l "strategyType" \/ exists ty, has l "strategyType" (JStr ty) /\ (ty = of_string "PROBABILISTIC" \/ ty = of_string "RATE_LIMITING")) /\
  (absent l "probabilisticSampling" \/ exists j p, has l "probabilisticSampling" j /\ says_prob j p) /\
  (absent l "rateLimitingSampling" \/ exists j z, has l "rateLimitingSampling" j /\ says_rate j z) /\
  (absent l "operationSampling" \/ exists l', has l "operationSampling" (JObj l') /\ NoDup (map fst l') /\
     (absent l' "defaultSamplingProbability" \/ exists f, says_number l' "defaultSamplingProbability" f) /\
     (absent l' "defaultLowerBoundTracesPerSecond" \/ exists f, says_number l' "defaultLowerBoundTracesPerSecond" f) /\
     (absent l' "defaultUpperBoundTracesPerSecond" \/ exists f, says_number l' "defaultUpperBoundTracesPerSecond" f) /\
     exists js ops, has l' "perOperationStrategies" (JArr js) /\ Forall2 says_op js ops).

(** The answer by which Jaeger limits the rate is not understood, whatever rate it gives. *)
Definition rate_answer (z : Z) : list (str * json) :=
  [field "strategyType" (JStr (of_string "RATE_LIMITING")); field "rateLimitingSampling" (JObj [field "maxTracesPerSecond" (JInt z)])].
Definition ops_answer : list (str * json) :=
  [field "strategyType" (JStr (of_string "PROBABILISTIC"));
   field "operationSampling" (JObj [field "defaultSamplingProbability" (JFloat (f64_of_Z 1)); field "defaultLowerBoundTracesPerSecond" (JInt 0);
                                    field "perOperationStrategies" (JArr [])])].
Ltac no_key := let j := fresh in let H := fresh in intros j H; cbv [has In field rate_answer ops_answer] in H;
  repeat match type of H with _ \/ _ => destruct H as [H|H]; [discriminate H|] end; exact H.
Ltac no_dup := repeat (apply NoDup_cons; [cbn [In]; let H := fresh in intros H; repeat (destruct H as [H|H]; [discriminate H|]); exact H|]); apply NoDup_nil.
Lemma rate_answer_is z : - 2 ^ 31 <= z < 2 ^ 31 -> jaeger_answer (rate_answer z).
Proof.
  intros Hz. split; [cbn; no_dup|]. split; [right; eexists; split; [left; reflexivity|right; reflexivity]|].
  split; [left; no_key|]. split; [|left; no_key].
  right. eexists. exists z. split; [right; left; reflexivity|]. eexists. split; [split; [reflexivity|cbn; no_dup]|]. split; [left; reflexivity|exact Hz].
Qed.
Theorem C162_rate_limiting_refuted : forall z, - 2 ^ 31 <= z < 2 ^ 31 ->
  jaeger_answer (rate_answer z) /\ request_new_strategy (Answer 200 (Some (JObj (rate_answer z)))) = None.
Proof. intros z Hz. split; [exact (rate_answer_is z Hz)|reflexivity]. Qed.
Print Assumptions C162_rate_limiting_refuted.
(** So a sampler in front of such a server never limits anything: the default decides. *)
Theorem C162_limit_never_applied_refuted : forall size z now t name outs w w' o,
  r_run size r_start [Tick; Fetched now (Answer 200 (Some (JObj (rate_answer z))))] = Some (w, outs) ->
  r_step size w (Ask now t name) = Some (w', o) -> o = [None].
Proof. intros size z now t name outs w w' o H Hs. injection H as <- <-. cbn in Hs. injection Hs as <- <-. reflexivity. Qed.
Print Assumptions C162_limit_never_applied_refuted.
(** Nor is an answer without a type, which clients are told to ignore. *)
Theorem C162_type_left_out_refuted : forall p,
  jaeger_answer [field "probabilisticSampling" (JObj [field "samplingRate" (JFloat p)])] /\
  request_new_strategy (Answer 200 (Some (JObj [field "probabilisticSampling" (JObj [field "samplingRate" (JFloat p)])]))) = None.
Proof.
  intros p. split; [|reflexivity]. split; [cbn; no_dup|]. split; [left; no_key|]. split; [|split; left; no_key].
  right. eexists. exists p. split; [left; reflexivity|]. eexists. split; [split; [reflexivity|cbn; no_dup]|]. eexists. split; [left; reflexivity|left; reflexivity].
Qed.
Print Assumptions C162_type_left_out_refuted.
(** Nor strategies per operation without the upper bound that "almost no SDKs support". *)
Theorem C162_bound_left_out_refuted : jaeger_answer ops_answer /\ request_new_strategy (Answer 200 (Some (JObj ops_answer))) = None.
Proof.
  split; [|reflexivity]. split; [cbn; no_dup|]. split; [right; eexists; split; [left; reflexivity|left; reflexivity]|].
  split; [left; no_key|]. split; [left; no_key|]. right. eexists. split; [right; left; reflexivity|]. split; [cbn; no_dup|].
  split; [right; eexists; eexists; split; [left; reflexivity|left; reflexivity]|].
  split; [right; exists (f64_of_Z 0); eexists; split; [right; left; reflexivity|right; exists 0; split; reflexivity]|].
  split; [left; no_key|]. exists [], []. split; [right; right; left; reflexivity|constructor].
Qed.
Print Assumptions C162_bound_left_out_refuted.

(** * The task outlives the sampler *)
(** It never gets the message to stop, as it is itself an owner of what would send it. *)
Lemma owners_kept size acts : forall w outs, r_run size r_start acts = Some (w, outs) ->
  rw_owners w = S (rw_handles w) /\ rw_stop w = false /\ rw_task w <> Ended.
Proof.
  induction acts as [|a acts IH] using rev_ind; intros w outs H.
  - injection H as <- <-. repeat split. discriminate.
  - rewrite run_app in H. destruct (r_run size r_start acts) as [[w1 o1]|] eqn:E; [|discriminate]. destruct (IH w1 o1 eq_refl) as (H1 & H2 & H3).
    cbn [r_run] in H. destruct (r_step size w1 a) as [[w2 o2]|] eqn:Es; [|discriminate]. injection H as -> _.
    destruct a as [| | |now x| |now t name]; cbn [r_step] in Es.
    + destruct (rw_handles w1) eqn:Eh; [discriminate|]. injection Es as <- _. cbn. rewrite H1. auto.
    + destruct (rw_handles w1) eqn:Eh; [discriminate|]. injection Es as <- _. cbn. rewrite H1, H2. cbn. auto.
    + destruct (rw_task w1); try discriminate. injection Es as <- _. cbn. repeat split; auto; discriminate.
    + destruct (rw_task w1) eqn:Et; try discriminate. injection Es as <- _. destruct (request_new_strategy x); cbn; repeat split; auto; discriminate.
    + rewrite H2 in Es. destruct (rw_task w1); discriminate.
    + destruct (rw_handles w1) eqn:Eh; [discriminate|]. destruct (js_decide (rw_strategy w1) now t name) as [d s]. injection Es as <- _. cbn. rewrite Eh. auto.
Qed.
Theorem C161_task_ends_refuted :
  (forall size acts w outs, r_run size r_start acts = Some (w, outs) -> rw_task w <> Ended /\ rw_stop w = false) /\
  (forall size n, exists acts w outs, r_run size r_start (DropSampler :: acts) = Some (w, outs) /\ rw_handles w = O /\ rw_requests w = n).
Proof.
  split.
  - intros size acts w outs H. destruct (owners_kept size acts w outs H) as (_ & H1 & H2). auto.
  - intros size n.
    assert (G : forall n w, rw_task w = Idle -> exists acts w' outs, r_run size w acts = Some (w', outs) /\ rw_handles w' = rw_handles w /\ rw_requests w' = (n + rw_requests w)%nat).
    { clear n. induction n as [|n IH]; intros w Hi; [exists [], w, []; auto|].
      set (w1 := mk_rw (rw_handles w) (rw_owners w) (rw_stop w) Idle (S (rw_requests w)) (rw_strategy w)).
      destruct (IH w1 eq_refl) as (acts & w' & outs & H1 & H2 & H3). exists (Tick :: Fetched 0 NoAnswer :: acts), w', outs.
      cbn [r_run r_step]. rewrite Hi. cbn [r_run r_step rw_task]. change (with_task Idle _) with w1. rewrite H1. split; [reflexivity|]. split; [exact H2|].
      rewrite H3. cbn [w1 rw_requests]. lia. }
    destruct (G n (release (with_handles 0 r_start)) eq_refl) as (acts & w' & outs & H1 & H2 & H3). exists acts, w', outs.
    cbn [r_run r_step r_start rw_handles]. change (mk_rw 1 2 false Idle 0 None) with r_start. rewrite H1. split; [reflexivity|]. split; [exact H2|]. rewrite H3. cbn. lia.
Qed.
Print Assumptions C161_task_ends_refuted.

(** The hypotheses are met: a strategy is fetched, then a fetch fails, then one answers 503;
    the span is decided by the first answer. *)
Definition half_answer : list (str * json) :=
  [field "strategyType" (JStr (of_string "PROBABILISTIC")); field "probabilisticSampling" (JObj [field "samplingRate" (JFloat (f64_of_Z 1))])].
Definition history : list ract :=
  [Ask 0 5 (of_string "a"); Tick; Fetched 1 (Answer 200 (Some (JObj half_answer))); CloneSampler; Tick; Fetched 2 NoAnswer; DropSampler; Tick;
   Fetched 3 (Answer 503 (Some (JObj half_answer)))].
Example C160_nonvacuous : exists w, r_run (f64_of_Z 100) r_start history = Some (w, [None]) /\ in_force history = Some (WithProbability (f64_of_Z 1)) /\
  r_step (f64_of_Z 100) w (Ask 4 5 (of_string "a")) = Some (w, [Some (sample_prob (f64_of_Z 1) 5)]) /\ rw_requests w = 3%nat /\ rw_handles w = 1%nat.
Proof. eexists. repeat split; reflexivity. Qed.
Example C160_answer_nonvacuous : NoDup (map fst half_answer) /\ maybe half_answer "probabilisticSampling" says_prob (Some (f64_of_Z 1)).
Proof.
  split; [cbn; no_dup|]. eexists. split; [right; left; reflexivity|]. eexists. split; [split; [reflexivity|cbn; no_dup]|]. eexists. split; [left; reflexivity|left; reflexivity].
Qed.
