(** Theorems for C22-C24 and C70. *)
From Coq Require Import String List NArith ZArith Bool Reals Lia Lra.
From Coq Require Import ZifyBool ZifyNat ZifyN.
From Flocq Require Import Core.
From Verif Require Import Str ContextModel StrProofs TraceModel Carrier F64 F64Proofs SamplerModel SamplerSpec SamplerProofs PropProofs.
Import ListNotations.
Local Open Scope Z_scope.

(** * C22: decisions *)

(** The decision of a built-in sampler is a function of the parent's span
    context and the trace id. *)
Theorem C22_depends_only_on_parent_and_trace_id : forall V A (s : sampler V A), builtin s ->
  forall (p p' : option (sctx V)) t a a', parent_sc p = parent_sc p' -> decide s p t a = decide s p' t a'.
Proof.
  intros V A s Hs p p' t a a' Hp. induction s as [| |d IH|r|f]; try reflexivity; [|destruct Hs].
  cbn [decide]. specialize (IH Hs).
  destruct p as [cx|], p' as [cx'|]; cbn in Hp; unfold has_active_span, cx_span_context.
  - rewrite <- Hp. destruct (cx_span cx) as [sc|] eqn:E; [rewrite <- Hp, ?E; reflexivity|exact IH].
  - rewrite Hp. exact IH.
  - rewrite <- Hp. exact IH.
  - exact IH.
Qed.
Print Assumptions C22_depends_only_on_parent_and_trace_id.

(** With an active parent span, ParentBased copies its sampled bit, whatever
    the delegate (built-in, nested or user-defined) would say. *)
Theorem C22_parent_decides : forall V A (d : sampler V A) cx sc t a, cx_span cx = Some sc ->
  decide (ParentBased d) (Some cx) t a = if N.testbit (sc_flags sc) 0 then RecordAndSample else Drop.
Proof.
  intros V A d cx sc t a H. cbn [decide]. unfold has_active_span, cx_span_context. rewrite H.
  cbv iota. rewrite ?H. unfold sc_is_sampled. destruct (PropProofs.has_flag_bits (sc_flags sc)) as (_ & _ & ->). reflexivity.
Qed.
Print Assumptions C22_parent_decides.

(** Without one it asks the delegate. *)
Theorem C22_root_delegates : forall V A (d : sampler V A) p t a, parent_sc p = None ->
  decide (ParentBased d) p t a = decide d p t a.
Proof.
  intros V A d p t a H. cbn [decide]. destruct p as [cx|]; [|reflexivity].
  unfold has_active_span. cbn in H. rewrite H. reflexivity.
Qed.
Print Assumptions C22_root_delegates.

(** Any depth of nesting decides like one level. *)
Theorem C22_nesting : forall V A (d : sampler V A) n p t a,
  decide (Nat.iter n ParentBased (ParentBased d)) p t a = decide (ParentBased d) p t a.
Proof.
  intros V A d n p t a. induction n as [|n IH]; [reflexivity|]. cbn [Nat.iter nat_rect].
  change (decide (ParentBased (Nat.iter n ParentBased (ParentBased d))) p t a = decide (ParentBased d) p t a).
  destruct (parent_sc p) as [sc|] eqn:E.
  - destruct p as [cx|]; [|discriminate]. etransitivity; [exact (C22_parent_decides V A _ cx sc t a E)|symmetry; exact (C22_parent_decides V A d cx sc t a E)].
  - rewrite C22_root_delegates by exact E. exact IH.
Qed.
Print Assumptions C22_nesting.

Theorem C22_constant_samplers : forall V A (p : option (sctx V)) t (a : A),
  decide AlwaysOn p t a = RecordAndSample /\ decide AlwaysOff p t a = Drop.
Proof. auto. Qed.
Print Assumptions C22_constant_samplers.

(** Built-in samplers never answer RecordOnly. *)
Theorem C22_builtin_two_valued : forall V A (s : sampler V A), builtin s ->
  forall p t a, decide s p t a = RecordAndSample \/ decide s p t a = Drop.
Proof.
  intros V A s Hs p t a. induction s as [| |d IH|r|f]; cbn [decide]; auto; [|apply sample_two|destruct Hs].
  destruct p as [cx|]; [|apply IH, Hs]. destruct (has_active_span cx); [|apply IH, Hs].
  destruct (sc_is_sampled _); auto.
Qed.
Print Assumptions C22_builtin_two_valued.

(** The result carries the parent's trace state. *)
Theorem C22_trace_state : forall V (p : option (sctx V)),
  sampled_state p = match parent_sc p with Some sc => sc_state sc | None => None end.
Proof. intros V [cx|]; [|reflexivity]. unfold sampled_state, cx_span_context. cbn. destruct (cx_span cx); reflexivity. Qed.
Print Assumptions C22_trace_state.

(** Refuted: a parent whose span context is invalid is not treated as "no
    parent": the delegate is not consulted. *)
Theorem C98_invalid_parent_is_root_refuted : exists (cx : sctx unit) sc t,
  cx_span cx = Some sc /\ sc_is_valid sc = false /\
  decide (V:=unit) (A:=unit) (ParentBased AlwaysOn) (Some cx) t tt <> decide AlwaysOn (Some cx) t tt.
Proof. exists (mk_context (Some (mk_sc 0 0 0 false None)) None false), (mk_sc 0 0 0 false None), 1%N. repeat split. discriminate. Qed.
Print Assumptions C98_invalid_parent_is_root_refuted.

Example C22_nonvacuous :
  let parent f := Some (mk_context (V:=unit) (Some (mk_sc 5 6 f true (Some [(of_string "a", of_string "b")]))) None false) in
  decide (V:=unit) (A:=unit) (ParentBased AlwaysOff) (parent 1%N) 5 tt = RecordAndSample /\
  decide (V:=unit) (A:=unit) (ParentBased AlwaysOn) (parent 0%N) 5 tt = Drop /\
  decide (V:=unit) (A:=unit) (ParentBased (ParentBased AlwaysOn)) None 5 tt = RecordAndSample /\
  sampled_state (parent 1%N) = Some [(of_string "a", of_string "b")].
Proof. repeat split. Qed.

(** * C23: ratio sampling *)

Theorem C23_exact_share : forall p t, f64_is_nan p = false -> f64_leb (f64_of_Z 1) p = false ->
  (sample_prob p t = RecordAndSample <-> Z.of_N (t mod 2 ^ 64) < 2 * ratio_bound p) /\
  0 <= ratio_bound p < 2 ^ 63.
Proof. intros p t Hn H1. split; [apply sample_spec; assumption|apply upper_spec; assumption]. Qed.
Print Assumptions C23_exact_share.

Theorem C23_monotone : forall p q t, f64_leb p q = true ->
  sample_prob p t = RecordAndSample -> sample_prob q t = RecordAndSample.
Proof. exact sample_mono. Qed.
Print Assumptions C23_monotone.

Theorem C23_extremes : forall p t,
  (f64_leb (f64_of_Z 1) p = true -> sample_prob p t = RecordAndSample) /\
  (f64_leb p (f64_of_Z 0) = true -> sample_prob p t = Drop) /\
  (f64_is_nan p = true -> sample_prob p t = Drop).
Proof.
  intros p t. repeat split; [|apply sample_nonpositive|apply sample_nan].
  intros H. unfold sample_prob. rewrite H. reflexivity.
Qed.
Print Assumptions C23_extremes.

(** Two traces with the same low word get the same decision. *)
Theorem C23_low_word_only : forall p t t', (t mod 2 ^ 64 = t' mod 2 ^ 64)%N -> sample_prob p t = sample_prob p t'.
Proof. intros p t t' H. unfold sample_prob. rewrite H. reflexivity. Qed.
Print Assumptions C23_low_word_only.

(** 1/4 = 2^-2 samples exactly a quarter of the low words. *)
Example C23_nonvacuous :
  ratio_bound (f64_lit 1 (-2)) = 2 ^ 61 /\
  sample_prob (f64_lit 1 (-2)) (2 ^ 62 - 1) = RecordAndSample /\ sample_prob (f64_lit 1 (-2)) (2 ^ 62) = Drop /\
  f64_leb (f64_lit 1 (-2)) (f64_lit 3 (-2)) = true /\ sample_prob (f64_lit 3 (-2)) (2 ^ 62) = RecordAndSample.
Proof.
  split; [|vm_compute; auto].
  destruct (upper_spec (f64_lit 1 (-2)) eq_refl eq_refl) as [<- _]. vm_compute. reflexivity.
Qed.

(** * C24: rate limiter *)

(** The floating point bucket is the integer token bucket when rate and size
    are whole numbers (the rate always is: it arrives as an i32). *)
Theorem C24_refines_tokens : forall b t now, bucket_is b t -> tk_ok t -> now - tk_last t < 2 ^ 53 * 10 ^ 9 ->
  let (ok, b') := lb_check b now in let (ok', t') := tk_poll t now in
  ok = ok' /\ bucket_is b' t' /\ tk_ok t'.
Proof. exact lb_refines. Qed.
Print Assumptions C24_refines_tokens.

(** A new bucket admits at most [size + rate * whole seconds elapsed] spans. *)
Theorem C24_never_too_many : forall size rate t0 times T,
  0 <= rate < 2 ^ 31 -> 0 <= size <= 2 ^ 53 -> forward t0 times -> (forall x, In x times -> x <= T) ->
  t0 <= T < t0 + 2 ^ 53 * 10 ^ 9 ->
  fst (admitted (lb_new (f64_of_Z size) (f64_of_Z rate) t0) times) <= size + rate * ((T - t0) / 10 ^ 9).
Proof.
  intros size rate t0 times T Hr Hs Hf HT HT2.
  apply (admitted_bound times _ (mk_tokens rate size size t0) t0); cbn [tk_last tk_available tk_rate]; try lia; auto.
  - unfold bucket_is, lb_new. cbn. repeat split; apply holds_of_Z; lia.
  - unfold tk_ok. cbn. lia.
  - intros x Hx. split; [|apply HT, Hx]. clear -Hf Hx. revert t0 Hf. induction times as [|y r IH]; intros t0 Hf; [destruct Hx|].
    destruct Hf as [A B]. destruct Hx as [->|Hx]; [exact A|]. specialize (IH Hx y B). lia.
Qed.
Print Assumptions C24_never_too_many.

(** It does refill: a poll at least one second after the last refill is admitted. *)
Theorem C24_refills_after_a_second : forall b t now, bucket_is b t -> tk_ok t -> 1 <= tk_rate t -> 1 <= tk_size t ->
  tk_last t + 10 ^ 9 <= now -> now - tk_last t < 2 ^ 53 * 10 ^ 9 -> fst (lb_check b now) = true.
Proof.
  intros b t now Hb Ht Hr Hs Hn Hn2. pose proof (lb_refines b t now Hb Ht Hn2) as G.
  destruct (lb_check b now) as [ok b'], (tk_poll t now) as [ok' t'] eqn:Ep. destruct G as (-> & _).
  cbn [fst]. unfold tk_poll in Ep. destruct (Z.leb_spec 1 (tk_available t)); [congruence|].
  destruct (Z.ltb_spec now (tk_last t)); [congruence|]. cbv zeta in Ep.
  assert (1 <= (now - tk_last t) / 10 ^ 9) by (apply Z.div_le_lower_bound; lia).
  destruct Ht as (Or & Oa & Os).
  destruct (Z.leb_spec 1 (Z.min ((now - tk_last t) / 10 ^ 9 * tk_rate t + tk_available t) (tk_size t))); [congruence|].
  nia.
Qed.
Print Assumptions C24_refills_after_a_second.

(** Refuted: a limiter with no tokens left that is polled more often than once
    a second admits nothing, for ever and at any rate. *)
Theorem C99_busy_limiter_starves_refuted : forall rate size times t0,
  0 <= rate < 2 ^ 31 -> 0 <= size <= 2 ^ 53 -> quick t0 times ->
  forall b, bucket_is b (mk_tokens rate 0 size t0) -> fst (admitted b times) = 0.
Proof.
  intros rate size times. induction times as [|x r IH]; intros t0 Hr Hs Hq b Hb; [reflexivity|].
  destruct Hq as [Hx Hq]. cbn [admitted].
  pose proof (lb_refines b _ x Hb) as G. cbn [tk_last] in G. specialize (G ltac:(unfold tk_ok; cbn; lia) ltac:(lia)).
  destruct (lb_check b x) as [ok b']. unfold tk_poll in G. cbn [tk_available tk_last tk_rate tk_size] in G.
  change (1 <=? 0) with false in G. cbv iota in G. destruct (Z.ltb_spec x t0); [lia|]. cbv zeta in G.
  rewrite Z.div_small in G by lia. rewrite Z.mul_0_l, Z.add_0_l, Z.min_l in G by lia. cbn in G.
  destruct G as (-> & Hb' & _). specialize (IH x Hr Hs Hq b' Hb'). destruct (admitted b' r) as [n b'']. cbn [fst] in *. lia.
Qed.
Print Assumptions C99_busy_limiter_starves_refuted.

(** Refuted: while the clock reads earlier than the last refill, every span is
    admitted, without any limit. *)
Theorem C99_clock_rewind_admits_all_refuted : forall rate size times t0,
  0 <= rate < 2 ^ 31 -> 0 <= size <= 2 ^ 53 -> (forall x, In x times -> x < t0) ->
  forall b, bucket_is b (mk_tokens rate 0 size t0) -> fst (admitted b times) = Z.of_nat (length times).
Proof.
  intros rate size times. induction times as [|x r IH]; intros t0 Hr Hs Hq b Hb; [reflexivity|].
  pose proof (Hq x (or_introl eq_refl)) as Hx. cbn [admitted].
  pose proof (lb_refines b _ x Hb) as G. cbn [tk_last] in G. specialize (G ltac:(unfold tk_ok; cbn; lia) ltac:(lia)).
  destruct (lb_check b x) as [ok b']. unfold tk_poll in G. cbn [tk_available tk_last tk_rate tk_size] in G.
  change (1 <=? 0) with false in G. cbv iota in G. destruct (Z.ltb_spec x t0); [|lia].
  destruct G as (-> & Hb' & _). specialize (IH t0 Hr Hs (fun y Hy => Hq y (or_intror Hy)) b' Hb').
  destruct (admitted b' r) as [n b'']. cbn [fst length] in *. lia.
Qed.
Print Assumptions C99_clock_rewind_admits_all_refuted.

Example C24_nonvacuous :
  fst (admitted (lb_new (f64_of_Z 2) (f64_of_Z 3) 0) [0; 0; 0; 10 ^ 9; 10 ^ 9; 10 ^ 9]) = 4 /\
  bucket_is (lb_new (f64_of_Z 0) (f64_of_Z 3) 7) (mk_tokens 3 0 0 7) /\
  quick 0 [5 * 10 ^ 8; 10 ^ 9; 15 * 10 ^ 8; 2 * 10 ^ 9].
Proof.
  split; [vm_compute; reflexivity|]. split.
  - unfold bucket_is, lb_new. cbn [lb_rate lb_available lb_size lb_last tk_rate tk_available tk_size tk_last].
    repeat split; try reflexivity; apply holds_of_Z; cbn; lia.
  - cbn. lia.
Qed.

(** * C70: the remote sampler *)

(** Before any strategy arrived the default sampler decides. *)
Theorem C70_default_until_first_response : forall now t name, js_decide None now t name = (None, None).
Proof. reflexivity. Qed.
Print Assumptions C70_default_until_first_response.

(** A response with a usable strategy is installed, per-operation first. *)
Theorem C70_response_installed : forall size now old r op rate p,
  (rs_operation r = Some op -> js_update size now old r = Some (PerOperation op)) /\
  (rs_operation r = None -> rs_rate r = Some rate ->
     (forall b, old <> Some (RateLimiting b)) ->
     js_update size now old r = Some (RateLimiting (lb_new size (f64_of_Z rate) now))) /\
  (rs_operation r = None -> rs_rate r = None -> rs_prob r = Some p ->
     js_update size now old r = Some (Probabilistic p)).
Proof.
  intros size now old [ro rr rp] op rate p. cbn. repeat split.
  - intros ->. unfold js_update, init_strategy. cbn. destruct old as [[]|]; reflexivity.
  - intros -> -> Hold. unfold js_update, init_strategy. cbn. destruct old as [[q|b|q]|]; destruct rp; try reflexivity.
    exfalso. exact (Hold b eq_refl).
  - intros -> -> ->. unfold js_update, init_strategy. cbn. destruct old as [[q|b|q]|]; reflexivity.
Qed.
Print Assumptions C70_response_installed.

(** A new rate for a running limiter keeps the tokens it has. *)
Theorem C70_rate_update_keeps_tokens : forall size now b rate,
  js_update size now (Some (RateLimiting b)) (mk_response None (Some rate) None) =
    Some (RateLimiting (mk_bucket (f64_of_Z rate) (lb_available b) (lb_size b) (lb_last b))).
Proof. reflexivity. Qed.
Print Assumptions C70_rate_update_keeps_tokens.

(** Decisions of the installed strategies. *)
Theorem C70_decisions : forall now t name,
  (forall p, js_decide (Some (Probabilistic p)) now t name = (Some (sample_prob p t), Some (Probabilistic p))) /\
  (forall po p, po_find (po_ops po) name = Some p -> fst (js_decide (Some (PerOperation po)) now t name) = Some (sample_prob p t)) /\
  (forall po, (forall p, ~ In (name, p) (po_ops po)) ->
     fst (js_decide (Some (PerOperation po)) now t name) = Some (sample_prob (po_default po) t)).
Proof.
  intros now t name. repeat split.
  - intros po p H. cbn. unfold po_probability. rewrite H. reflexivity.
  - intros po H. cbn. unfold po_probability.
    assert (po_find (po_ops po) name = None) as ->; [|reflexivity].
    induction (po_ops po) as [|[k p] r IH]; [reflexivity|]. cbn [po_find].
    rewrite IH by (intros q Hq; apply (H q); right; exact Hq).
    destruct (str_eqb_spec k name) as [->|]; [|reflexivity]. exfalso. apply (H p). left. reflexivity.
Qed.
Print Assumptions C70_decisions.

(** When a response names an operation more than once, its last entry counts. *)
Theorem C70_last_entry_of_operation_wins : forall now t name d before p after,
  (forall q, ~ In (name, q) after) ->
  fst (js_decide (Some (PerOperation (mk_per_op d (before ++ (name, p) :: after)))) now t name) = Some (sample_prob p t).
Proof.
  intros now t name d before p after H. cbn [js_decide fst]. unfold po_probability. cbn [po_ops].
  assert (po_find after name = None) as Hn.
  { induction after as [|[k q] r IH]; [reflexivity|]. cbn [po_find].
    rewrite IH by (intros q' Hq; apply (H q'); right; exact Hq).
    destruct (str_eqb_spec k name) as [->|]; [|reflexivity]. exfalso. apply (H q). left. reflexivity. }
  assert (po_find (before ++ (name, p) :: after) name = Some p) as ->; [|reflexivity].
  induction before as [|[k q] r IH]; cbn [app po_find].
  - rewrite Hn, str_eqb_refl. reflexivity.
  - rewrite IH. reflexivity.
Qed.
Print Assumptions C70_last_entry_of_operation_wins.

(** The remote sampler in rate limiting mode: over any sequence of spans it
    samples at most [size + rate * whole seconds elapsed] of them. *)
Theorem C24_C70_remote_sampler_limits : forall size rate t0 asked T,
  0 <= rate < 2 ^ 31 -> 0 <= size <= 2 ^ 53 -> forward t0 (map fst asked) ->
  (forall x, In x (map fst asked) -> x <= T) -> t0 <= T < t0 + 2 ^ 53 * 10 ^ 9 ->
  Z.of_nat (length (List.filter (fun d => match d with Some RecordAndSample => true | _ => false end)
              (remote_decisions (js_update (f64_of_Z size) t0 None (mk_response None (Some rate) None)) asked)))
  <= size + rate * ((T - t0) / 10 ^ 9).
Proof.
  intros size rate t0 asked T Hr Hs Hf HT HT2.
  pose proof (C24_never_too_many size rate t0 (map fst asked) T Hr Hs Hf HT HT2) as B.
  cbn [js_update init_strategy rs_operation rs_rate rs_prob].
  revert B. generalize (lb_new (f64_of_Z size) (f64_of_Z rate) t0) as b. intros b B.
  etransitivity; [|exact B]. clear. revert b. induction asked as [|[now [t name]] r IH]; intros b; [cbn; lia|].
  cbn [remote_decisions map fst admitted js_decide]. destruct (lb_check b now) as [ok b'].
  specialize (IH b'). destruct (admitted b' (map fst r)) as [n b'']. cbn [fst] in IH |- *.
  destruct ok; cbn [List.filter length]; lia.
Qed.
Print Assumptions C24_C70_remote_sampler_limits.

(** Refuted: a response without any strategy discards the one in force (the
    code's warning says it keeps using it). *)
Theorem C124_empty_response_keeps_strategy_refuted : forall size now old,
  js_update size now old (mk_response None None None) = None.
Proof. intros size now [[]|]; reflexivity. Qed.
Print Assumptions C124_empty_response_keeps_strategy_refuted.

Example C70_nonvacuous : exists b, fst (js_decide (js_update (f64_of_Z 1) 0 None (mk_response None (Some 5) None)) 0 1 []) = b /\ b = Some RecordAndSample.
Proof. eexists. split; [reflexivity|]. vm_compute. reflexivity. Qed.
