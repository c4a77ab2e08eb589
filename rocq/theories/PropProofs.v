From Coq Require Import String List Arith NArith Bool Lia.
From Coq Require Import ZifyBool ZifyNat ZifyN.
From stdpp Require Import base gmap.
From Verif Require Import Str StrProofs ContextModel BaggageModel Carrier TraceModel TraceSpec TraceProofs
  W3CModel W3CSpec W3CProofs PropModel PropSpec.
Import ListNotations.
Local Open Scope N_scope.

Lemma typed_bounds sc : sc_typed sc = true -> sc_trace sc < 2 ^ 128 /\ sc_span sc < 2 ^ 64.
Proof. unfold sc_typed. rewrite !andb_true_iff, !N.ltb_lt. intros [[A B] _]. split; assumption. Qed.

(** * B3 fields *)

Lemma no_upper_lower s : str_eqb (to_lower s) s = true <-> no_upper s.
Proof. rewrite str_eqb_eq. apply to_lower_id. Qed.

Lemma b3_trace_spec s v : b3_extract_trace_id s = Some v <-> b3_id [16; 32] (2 ^ 128) s v.
Proof.
  unfold b3_extract_trace_id, b3_id. rewrite <- no_upper_lower. cbn [In].
  destruct (str_eqb (to_lower s) s) eqn:E; cbn [negb orb].
  - destruct (negb (blen s =? 16) && negb (blen s =? 32)) eqn:L.
    + split; [discriminate|]. intros (_ & H & _). lia.
    + rewrite tid_spec. split; [intros [H1 H2]; repeat split; [lia|exact H1|exact H2]|]. tauto.
  - split; [discriminate|]. intros (H & _). discriminate.
Qed.

Lemma b3_span_spec s v : b3_extract_span_id s = Some v <-> b3_id [16] (2 ^ 64) s v.
Proof.
  unfold b3_extract_span_id, b3_id. rewrite <- no_upper_lower. cbn [In].
  destruct (str_eqb (to_lower s) s) eqn:E; cbn [negb orb].
  - destruct (N.eqb_spec (blen s) 16) as [L|L]; cbn [negb].
    + rewrite sid_spec. split; [intros [H1 H2]; repeat split; [lia|exact H1|exact H2]|]. tauto.
    + split; [discriminate|]. intros (_ & H & _). lia.
  - split; [discriminate|]. intros (H & _). discriminate.
Qed.

Lemma single_support e : enc_support e SingleHeader = uses_single e.
Proof. destruct e; reflexivity. Qed.

Lemma b3_state_spec e s f : b3_extract_sampled e s = Some f <-> b3_state_text e s f.
Proof.
  unfold b3_extract_sampled, b3_state_text, SAMPLED, FLAG_DEBUG. rewrite single_support.
  destruct (str_eqb_spec s (of_string "0")) as [->|N0]; cbn [orb].
  { split; [intros H; injection H as <-; left; auto|].
    intros [[_ ->]|[[H _]|[[H _]|[[H _]|[H _]]]]]; [reflexivity|discriminate..]. }
  destruct (str_eqb_spec s (of_string "false")) as [->|N1].
  { split; [intros H; injection H as <-; right; left; auto|].
    intros [[H _]|[[_ ->]|[[H _]|[[H _]|[H _]]]]]; [discriminate|reflexivity|discriminate..]. }
  destruct (str_eqb_spec s (of_string "1")) as [->|N2].
  { split; [intros H; injection H as <-; do 2 right; left; auto|].
    intros [[H _]|[[H _]|[[_ ->]|[[H _]|[H _]]]]]; try discriminate. reflexivity. }
  destruct (str_eqb_spec s (of_string "true")) as [->|N3]; cbn [andb].
  { destruct (uses_single e); cbn [negb].
    - split; [discriminate|]. intros [[H _]|[[H _]|[[H _]|[[H [_ H']]|[H _]]]]]; discriminate.
    - split; [intros H; injection H as <-; do 3 right; left; auto|].
      intros [[H _]|[[H _]|[[H _]|[[H [-> _]]|[H _]]]]]; try discriminate. reflexivity. }
  destruct (str_eqb_spec s (of_string "d")) as [->|N4]; cbn [andb].
  { destruct (uses_single e).
    - split; [intros H; injection H as <-; do 4 right; auto|].
      intros [[H _]|[[H _]|[[H _]|[[H [_ H']]|[H [-> _]]]]]]; try discriminate. reflexivity.
    - split; [discriminate|]. intros [[H _]|[[H _]|[[H _]|[[H [_ H']]|[H [_ H']]]]]]; discriminate. }
  split; [discriminate|]. intros [[H _]|[[H _]|[[H _]|[[H _]|[H _]]]]]; contradiction.
Qed.

Lemma hex_value_chars s v : hex_value s = Some v -> Forall (fun c => hex_digit_value c <> None) s.
Proof.
  revert v. induction s as [|c s IH] using rev_ind; intros v H; [constructor|].
  rewrite hex_value_snoc in H. destruct (hex_digit_value c) eqn:E; [|discriminate].
  destruct (hex_value s); [|discriminate]. apply List.Forall_app. split; [eapply IH; reflexivity|].
  constructor; [congruence|constructor].
Qed.

Lemma hex_field_lacks c s v : hex_digit_value c = None -> c <> 43 -> hex_field s v -> lacks c s.
Proof.
  intros Hc Hp (sg & d & -> & Hsg & _ & Hd) Hin. apply in_app_iff in Hin as [Hin|Hin].
  - destruct Hsg as [->| ->]; [destruct Hin|]. destruct Hin as [Hin|[]]. congruence.
  - apply hex_value_chars in Hd. rewrite List.Forall_forall in Hd. apply Hd in Hin. contradiction.
Qed.

Lemma b3_id_facts lens b s v : b3_id lens b s v -> lacks 45 s /\ s <> [].
Proof.
  intros (_ & _ & H & _). split; [|eapply hex_field_nonempty; exact H].
  apply (hex_field_lacks 45 s v); [reflexivity|discriminate|exact H].
Qed.

Lemma b3_state_facts e s f : b3_state_text e s f -> lacks 45 s /\ s <> [].
Proof.
  intros [[-> _]|[[-> _]|[[-> _]|[[-> _]|[-> _]]]]]; (split; [|discriminate]); cbn; unfold lacks; cbn; intuition discriminate.
Qed.

(** Equality of concatenations up to associativity. *)
Ltac lapp := cbn [join app]; repeat first [progress rewrite <- ?app_assoc | progress rewrite ?app_nil_r | progress cbn [app]]; reflexivity.

Lemma b3_single_spec e c sc : b3_extract_single e c = Some sc <->
  exists t s f, b3_single_text e (cr_get_or B3_SINGLE [] c) t s f /\ t <> 0 /\ s <> 0 /\ sc = mk_sc t s f true None.
Proof.
  unfold b3_extract_single. set (h := cr_get_or B3_SINGLE [] c). change DASH with 45. split.
  - assert (forall p0 p1 flags parent,
      b3_single_finish p0 p1 flags parent = Some sc ->
      exists t s f (x : N), b3_id [16; 32] (2 ^ 128) p0 t /\ b3_id [16] (2 ^ 64) p1 s /\ flags = Some f /\ parent = Some x /\
        t <> 0 /\ s <> 0 /\ sc = mk_sc t s f true None) as Hf.
    { intros p0 p1 flags parent. unfold b3_single_finish. destruct (b3_extract_trace_id p0) as [t|] eqn:E0; [|discriminate].
      destruct (b3_extract_span_id p1) as [s|] eqn:E1; [|discriminate].
      destruct flags as [f|]; [|discriminate]. destruct parent as [x|]; [|discriminate]. cbv zeta.
      destruct (sc_is_valid _) eqn:Ev; [|discriminate]. intros H. injection H as <-.
      apply b3_trace_spec in E0. apply b3_span_spec in E1. apply valid_ne in Ev as [V1 V2].
      exists t, s, f, x. auto 10. }
    destruct (split_terminator 45 h) as [|p0 [|p1 [|p2 [|p3 [|p4 r]]]]] eqn:Es; try discriminate; intros H; apply Hf in H
      as (t & s & f & x & H0 & H1 & Hfl & Hpar & V1 & V2 & ->); exists t, s, f; (split; [|auto]);
      pose proof (b3_id_facts _ _ _ _ H0) as [L0 N0]; pose proof (b3_id_facts _ _ _ _ H1) as [L1 N1].
    + apply split_term_iff in Es as [_ Es]; [|discriminate|exact N1]. injection Hfl as <-.
      exists p0, p1, []. destruct Es as [->| ->]; [exists []|exists [45]]; (split; [lapp|]); auto 10.
    + apply b3_state_spec in Hfl. pose proof (b3_state_facts _ _ _ Hfl) as [L2 N2].
      apply split_term_iff in Es as [_ Es]; [|discriminate|exact N2].
      exists p0, p1, (45 :: p2). destruct Es as [->| ->]; [exists []|exists [45]]; (split; [lapp|]); eauto 10.
    + apply b3_state_spec in Hfl. apply b3_span_spec in Hpar. pose proof (b3_id_facts _ _ _ _ Hpar) as [L3 N3].
      apply split_term_iff in Es as [_ Es]; [|discriminate|exact N3].
      exists p0, p1, (45 :: p2 ++ 45 :: p3). destruct Es as [->| ->]; [exists []|exists [45]];
        (split; [lapp|]); eauto 15.
  - intros (t & s & f & (p0 & p1 & more & trail & Hh & Htr & H0 & H1 & Hm) & V1 & V2 & ->).
    pose proof (b3_id_facts _ _ _ _ H0) as [L0 N0]. pose proof (b3_id_facts _ _ _ _ H1) as [L1 N1].
    assert (sc_is_valid (mk_sc t s f true None) = true) as Hval by (apply valid_ne; auto).
    apply b3_trace_spec in H0. apply b3_span_spec in H1.
    destruct Hm as [[-> ->]|[(p2 & -> & H2)|(p2 & p3 & v & -> & H2 & H3)]].
    + assert (split_terminator 45 h = [p0; p1]) as ->.
      { apply split_term_iff; [discriminate|exact N1|]. split; [auto|]. rewrite Hh. destruct Htr as [->| ->]; [left|right];
          lapp. }
      unfold b3_single_finish. rewrite H0, H1. cbv zeta. change FLAG_DEFERRED with 2. rewrite Hval. reflexivity.
    + pose proof (b3_state_facts _ _ _ H2) as [L2 N2].
      assert (split_terminator 45 h = [p0; p1; p2]) as ->.
      { apply split_term_iff; [discriminate|exact N2|]. split; [auto|]. rewrite Hh. destruct Htr as [->| ->]; [left|right];
          lapp. }
      apply b3_state_spec in H2. unfold b3_single_finish. rewrite H0, H1, H2. cbv zeta. rewrite Hval. reflexivity.
    + pose proof (b3_state_facts _ _ _ H2) as [L2 N2]. pose proof (b3_id_facts _ _ _ _ H3) as [L3 N3].
      assert (split_terminator 45 h = [p0; p1; p2; p3]) as ->.
      { apply split_term_iff; [discriminate|exact N3|]. split; [auto|]. rewrite Hh. destruct Htr as [->| ->]; [left|right];
          lapp. }
      apply b3_state_spec in H2. apply b3_span_spec in H3. unfold b3_single_finish. rewrite H0, H1, H2, H3. cbv zeta. rewrite Hval. reflexivity.
Qed.

Lemma b3_id_empty lens b v : ~ b3_id lens b [] v.
Proof. intros H. apply b3_id_facts in H as [_ H]. congruence. Qed.

Lemma b3_multi_flags_spec e c f :
  match b3_extract_debug (cr_get_or B3_DEBUG [] c) with
  | Some d => Some d
  | None => match cr_get B3_SAMPLED c with Some v => b3_extract_sampled e v | None => Some FLAG_DEFERRED end
  end = Some f <-> b3_multi_flags e c f.
Proof.
  unfold b3_multi_flags, b3_extract_debug, cr_get_or.
  assert (forall x : str, (match cr_get B3_DEBUG c with Some v => v | None => [] end = x /\ x <> []) <-> (cr_get B3_DEBUG c = Some x /\ x <> [])) as Hx.
  { intros x. destruct (cr_get B3_DEBUG c); split; intros [H1 H2]; split; congruence. }
  set (d := match cr_get B3_DEBUG c with Some v => v | None => [] end) in *.
  destruct (str_eqb_spec d (of_string "0")) as [E|E].
  - assert (cr_get B3_DEBUG c = Some (of_string "0")) as -> by (apply (Hx (of_string "0")); split; [exact E|discriminate]).
    split; [intros H; injection H as <-; right; left; auto|].
    intros [[H _]|[[_ ->]|(H & _)]]; [discriminate|reflexivity|congruence].
  - assert (cr_get B3_DEBUG c <> Some (of_string "0")) as E' by (intros H; apply E; apply (Hx (of_string "0")); split; [exact H|discriminate]).
    destruct (str_eqb_spec d (of_string "1")) as [F|F].
    + assert (cr_get B3_DEBUG c = Some (of_string "1")) as -> by (apply (Hx (of_string "1")); split; [exact F|discriminate]).
      split; [intros H; injection H as <-; left; auto|].
      intros [[_ ->]|[[H _]|(_ & H & _)]]; [reflexivity|discriminate|congruence].
    + assert (cr_get B3_DEBUG c <> Some (of_string "1")) as F' by (intros H; apply F; apply (Hx (of_string "1")); split; [exact H|discriminate]).
      split.
      * intros H. right; right. split; [exact E'|]. split; [exact F'|].
        destruct (cr_get B3_SAMPLED c) as [s|]; [left; exists s; split; [reflexivity|]; apply b3_state_spec, H|].
        right. injection H as <-. auto.
      * intros [[H _]|[[H _]|(_ & _ & [(s & -> & H)|[-> ->]])]]; [contradiction|contradiction| |reflexivity].
        apply b3_state_spec, H.
Qed.

Lemma b3_multi_spec e c sc : b3_extract_multi e c = Some sc <->
  exists t s f, b3_multi_text e c t s f /\ t <> 0 /\ s <> 0 /\ sc = mk_sc t s f true None.
Proof.
  unfold b3_extract_multi, b3_multi_text. split.
  - destruct (b3_extract_trace_id _) as [t|] eqn:E0; [|discriminate].
    destruct (b3_extract_span_id _) as [s|] eqn:E1; [|discriminate]. cbv zeta.
    match goal with |- match ?x with _ => _ end = _ -> _ => destruct x as [f|] eqn:E2 end; [|discriminate].
    destruct (sc_is_valid _) eqn:Ev; [|discriminate]. intros H. injection H as <-.
    apply b3_trace_spec in E0. apply b3_span_spec in E1. apply b3_multi_flags_spec in E2. apply valid_ne in Ev as [V1 V2].
    exists t, s, f. split; [|auto]. unfold cr_get_or in E0, E1.
    destruct (cr_get B3_TRACE c) as [p0|]; [|destruct (b3_id_empty _ _ _ E0)].
    destruct (cr_get B3_SPAN c) as [p1|]; [|destruct (b3_id_empty _ _ _ E1)]. eauto 10.
  - intros (t & s & f & (p0 & p1 & G0 & H0 & G1 & H1 & Hf) & V1 & V2 & ->).
    unfold cr_get_or at 1 2. rewrite G0, G1. apply b3_trace_spec in H0. apply b3_span_spec in H1. rewrite H0, H1. cbv zeta.
    apply b3_multi_flags_spec in Hf. rewrite Hf.
    assert (sc_is_valid (mk_sc t s f true None) = true) as -> by (apply valid_ne; auto). reflexivity.
Qed.

(** * B3 injection *)

Lemma has_flag_bits f : has_flag f FLAG_DEFERRED = deferred_bit f /\ has_flag f FLAG_DEBUG = debug_bit f
  /\ flags_is_sampled f = sampled_bit f.
Proof.
  assert (forall i, (N.land f (2 ^ i) =? 2 ^ i) = N.testbit f i) as H.
  { intros i. destruct (N.testbit f i) eqn:E.
    - apply N.eqb_eq. apply N.bits_inj. intros j. rewrite N.land_spec, N.pow2_bits_eqb.
      destruct (N.eqb_spec i j) as [->|]; [rewrite E; reflexivity|apply andb_false_r].
    - apply N.eqb_neq. intros H. apply (f_equal (fun n => N.testbit n i)) in H.
      rewrite N.land_spec, E, N.pow2_bits_true in H. discriminate. }
  unfold has_flag, FLAG_DEFERRED, FLAG_DEBUG, deferred_bit, debug_bit, sampled_bit.
  split; [exact (H 1)|]. split; [exact (H 2)|]. apply is_sampled_spec.
Qed.

Lemma pad_blen w v : blen (hex_pad w v) = N.of_nat w.
Proof.
  unfold blen. rewrite utf8_all_ascii2; [rewrite hex_pad_length; reflexivity|].
  eapply List.Forall_impl; [|apply hex_pad_chars]. intros c. unfold lower_hex_char. lia.
Qed.

Lemma pad_b3_trace t : t < 2 ^ 128 -> b3_id [16; 32] (2 ^ 128) (trace_id_display t) t.
Proof.
  intros H. split; [apply lhex_no_upper, hex_pad_chars|]. split; [right; left; symmetry; apply pad_blen|].
  split; [apply pad_field; [exact H|lia]|exact H].
Qed.
Lemma pad_b3_span s : s < 2 ^ 64 -> b3_id [16] (2 ^ 64) (span_id_display s) s.
Proof.
  intros H. split; [apply lhex_no_upper, hex_pad_chars|]. split; [left; symmetry; apply pad_blen|].
  split; [apply pad_field; [exact H|lia]|exact H].
Qed.

(** The text of the single header. *)
Definition b3_single_value (sc : span_context) : str :=
  trace_id_display (sc_trace sc) ++ [45] ++ span_id_display (sc_span sc) ++
  (if deferred_bit (sc_flags sc) then []
   else 45 :: (if debug_bit (sc_flags sc) then of_string "d"
               else if sampled_bit (sc_flags sc) then of_string "1" else of_string "0")).

Ltac crs := repeat first [rewrite cr_get_set_same | rewrite cr_get_set_other by discriminate].

Lemma b3_inject_gets {V : Type} (e : b3_encoding) (cx : context span_context V) c sc f c' :
  cx_span_context cx = sc -> sc_flags sc = f -> b3_inject e cx c = c' ->
  if sc_is_valid sc then
    cr_get B3_SINGLE c' = (if uses_single e then Some (b3_single_value sc) else cr_get B3_SINGLE c) /\
    cr_get B3_TRACE c' = Some (trace_id_display (sc_trace sc)) /\
    cr_get B3_SPAN c' = Some (span_id_display (sc_span sc)) /\
    cr_get B3_DEBUG c' = (if debug_bit f then Some (of_string "1") else cr_get B3_DEBUG c) /\
    cr_get B3_SAMPLED c' =
      (if debug_bit f || deferred_bit f then cr_get B3_SAMPLED c
       else Some (if sampled_bit f then of_string "1" else of_string "0"))
  else
    cr_get B3_SINGLE c' =
      (if uses_single e then Some (if sampled_bit f then of_string "1" else of_string "0") else cr_get B3_SINGLE c) /\
    cr_get B3_SAMPLED c' = Some (if sampled_bit f then of_string "1" else of_string "0") /\
    cr_get B3_TRACE c' = cr_get B3_TRACE c /\ cr_get B3_SPAN c' = cr_get B3_SPAN c /\
    cr_get B3_DEBUG c' = cr_get B3_DEBUG c.
Proof.
  intros Hsc Hf <-. unfold b3_inject. rewrite Hsc, single_support.
  assert (enc_support e MultipleHeader || enc_support e UnSpecified = true) as -> by (destruct e; reflexivity).
  destruct (has_flag_bits (sc_flags sc)) as (-> & -> & Hs). unfold sc_is_sampled. rewrite Hs, Hf.
  unfold b3_single_value. rewrite Hf. change DASH with 45. cbv zeta.
  destruct (sc_is_valid sc).
  - destruct (uses_single e), (debug_bit f), (deferred_bit f), (sampled_bit f); cbn [negb orb]; crs;
      rewrite <- ?app_assoc, ?app_nil_r; auto.
  - destruct (uses_single e); crs; auto.
Qed.

Lemma b3_inject_other {V : Type} (e : b3_encoding) (cx : context span_context V) (c : carrier) k :
  ~ In k [B3_SINGLE; B3_TRACE; B3_SPAN; B3_DEBUG; B3_SAMPLED] -> b3_inject e cx c !! k = c !! k.
Proof.
  cbn [In]. intros H.
  assert (forall n v (c : carrier), to_lower n = n -> n <> k -> cr_set n v c !! k = c !! k) as Hset.
  { intros n v c0 En Hn. unfold cr_set. rewrite En. apply lookup_insert_ne, Hn. }
  assert (B3_SINGLE <> k /\ B3_TRACE <> k /\ B3_SPAN <> k /\ B3_DEBUG <> k /\ B3_SAMPLED <> k) as (H1 & H2 & H3 & H4 & H5) by tauto.
  unfold b3_inject. cbv zeta.
  repeat match goal with |- context [if ?b then _ else _] => destruct b end;
    repeat (rewrite Hset by (reflexivity || assumption)); reflexivity.
Qed.

Lemma b3_inject_single_unchanged {V : Type} (e : b3_encoding) (cx : context span_context V) (c : carrier) :
  uses_single e = false -> b3_inject e cx c !! B3_SINGLE = c !! B3_SINGLE.
Proof.
  intros H. pose proof (b3_inject_gets e cx c _ _ _ eq_refl eq_refl eq_refl) as G. rewrite H in G.
  destruct (sc_is_valid (cx_span_context cx)); destruct G as (G & _); exact G.
Qed.

Lemma b3_roundtrip_single {V : Type} (e : b3_encoding) (cx : context span_context V) (c : carrier) sc :
  cx_span_context cx = sc ->
  uses_single e = true -> sc_typed sc = true -> sc_is_valid sc = true ->
  b3_extract_sc e (b3_inject e cx c) =
    Some (mk_sc (sc_trace sc) (sc_span sc) (b3_returned e (sc_flags sc)) true None).
Proof.
  intros Hsc He Ht Hv. unfold b3_extract_sc.
  destruct (typed_bounds sc Ht) as [B1 B2].
  assert (b3_extract_single e (b3_inject e cx c) =
    Some (mk_sc (sc_trace sc) (sc_span sc) (b3_returned e (sc_flags sc)) true None)) as ->; [|reflexivity].
  apply b3_single_spec. apply valid_ne in Hv as Hv'. destruct Hv' as [V1 V2].
  exists (sc_trace sc), (sc_span sc), (b3_returned e (sc_flags sc)).
  split; [|split; [exact V1|split; [exact V2|reflexivity]]].
  pose proof (b3_inject_gets e cx c sc _ _ Hsc eq_refl eq_refl) as G. rewrite Hv, He in G.
  destruct G as (G & _). unfold cr_get_or. rewrite G. unfold b3_single_value.
  exists (trace_id_display (sc_trace sc)), (span_id_display (sc_span sc)),
    (if deferred_bit (sc_flags sc) then []
     else 45 :: (if debug_bit (sc_flags sc) then of_string "d"
                 else if sampled_bit (sc_flags sc) then of_string "1" else of_string "0")), [].
  rewrite app_nil_r. split; [reflexivity|]. split; [auto|]. split; [apply pad_b3_trace, B1|]. split; [apply pad_b3_span, B2|].
  unfold b3_returned. rewrite He. destruct (deferred_bit (sc_flags sc)); [left; auto|]. right; left.
  eexists. split; [reflexivity|]. unfold b3_state_text. rewrite He.
  destruct (debug_bit (sc_flags sc)); [do 4 right; auto|].
  destruct (sampled_bit (sc_flags sc)); [do 2 right; left; auto|left; auto].
Qed.

Lemma b3_roundtrip_multi {V : Type} (e : b3_encoding) (cx : context span_context V) (c : carrier) sc :
  cx_span_context cx = sc ->
  uses_single e = false -> sc_typed sc = true -> sc_is_valid sc = true ->
  cr_get B3_SINGLE c = None -> cr_get B3_DEBUG c = None -> cr_get B3_SAMPLED c = None ->
  b3_extract_sc e (b3_inject e cx c) =
    Some (mk_sc (sc_trace sc) (sc_span sc) (b3_returned e (sc_flags sc)) true None).
Proof.
  intros Hsc He Ht Hv C1 C2 C3. unfold b3_extract_sc.
  destruct (typed_bounds sc Ht) as [B1 B2].
  pose proof (b3_inject_gets e cx c sc _ _ Hsc eq_refl eq_refl) as G. rewrite Hv, He in G.
  destruct G as (G1 & G2 & G3 & G4 & G5).
  assert (b3_extract_single e (b3_inject e cx c) = None) as ->.
  { unfold b3_extract_single, cr_get_or. rewrite G1, C1. reflexivity. }
  apply b3_multi_spec. apply valid_ne in Hv as [V1 V2].
  exists (sc_trace sc), (sc_span sc), (b3_returned e (sc_flags sc)).
  split; [|split; [exact V1|split; [exact V2|reflexivity]]].
  exists (trace_id_display (sc_trace sc)), (span_id_display (sc_span sc)).
  split; [exact G2|]. split; [apply pad_b3_trace, B1|]. split; [exact G3|]. split; [apply pad_b3_span, B2|].
  unfold b3_multi_flags, b3_returned. rewrite He, G4, G5, C2, C3. unfold b3_state_text.
  destruct (debug_bit (sc_flags sc)); [auto|]. cbn [orb]. right; right.
  split; [discriminate|]. split; [discriminate|].
  destruct (deferred_bit (sc_flags sc)); [auto|]. left.
  destruct (sampled_bit (sc_flags sc)); eexists; (split; [reflexivity|]); [do 2 right; left; auto|left; auto].
Qed.

Lemma b3_extract_slot {V : Type} e : span_slot (V:=V) (b3_propagator e) (b3_extract_sc e).
Proof.
  intros cx c. cbn [pr_extract b3_propagator]. unfold b3_extract. destruct (b3_extract_sc e c) as [sc|] eqn:E; [|reflexivity].
  assert (sc_is_valid sc = true) as ->; [|reflexivity]. unfold b3_extract_sc in E.
  destruct (b3_extract_single e c) as [sc'|] eqn:E1.
  - injection E as ->. apply b3_single_spec in E1 as (t & s & f & _ & V1 & V2 & ->). apply valid_ne. auto.
  - apply b3_multi_spec in E as (t & s & f & _ & V1 & V2 & ->). apply valid_ne. auto.
Qed.

Lemma b3_extract_valid e c sc : b3_extract_sc e c = Some sc ->
  sc_is_valid sc = true /\ sc_remote sc = true /\ sc_typed sc = true /\ sc_state sc = None.
Proof.
  assert (forall t s f, t <> 0 -> s <> 0 -> t < 2 ^ 128 -> s < 2 ^ 64 -> f < 256 ->
    let sc := mk_sc t s f true None in sc_is_valid sc = true /\ sc_remote sc = true /\ sc_typed sc = true /\ sc_state sc = None) as H.
  { intros t s f V1 V2 B1 B2 B3. repeat split; [apply valid_ne; auto|]. unfold sc_typed. rewrite !andb_true_iff, !N.ltb_lt. auto. }
  assert (forall s f, b3_state_text e s f -> f < 256) as Hst.
  { intros s f [[_ ->]|[[_ ->]|[[_ ->]|[[_ [-> _]]|[_ [-> _]]]]]]; lia. }
  unfold b3_extract_sc. destruct (b3_extract_single e c) as [sc'|] eqn:E1.
  - intros E. injection E as ->.
    apply b3_single_spec in E1 as (t & s & f & (p0 & p1 & more & tr & _ & _ & (_ & _ & _ & B1) & (_ & _ & _ & B2) & Hm) & V1 & V2 & ->).
    apply H; try assumption. destruct Hm as [[_ ->]|[(p2 & _ & Hm)|(p2 & p3 & v & _ & Hm & _)]]; [lia|eapply Hst; exact Hm..].
  - intros E. apply b3_multi_spec in E as (t & s & f & (p0 & p1 & _ & (_ & _ & _ & B1) & _ & (_ & _ & _ & B2) & Hm) & V1 & V2 & ->).
    apply H; try assumption. destruct Hm as [[_ ->]|[[_ ->]|(_ & _ & [(s' & _ & Hm)|[_ ->]])]]; [lia|lia|eapply Hst; exact Hm|lia].
Qed.

(** * Jaeger fields *)

Lemma dec_value_snoc s c : dec_value (s ++ [c]) =
  match dec_digit_value c, dec_value s with Some d, Some v => Some (d + 10 * v) | _, _ => None end.
Proof. unfold dec_value. rewrite rev_app_distr. reflexivity. Qed.

Lemma dec_digits_app b acc s t :
  dec_digits b acc (s ++ t) = match dec_digits b acc s with Some v => dec_digits b v t | None => None end.
Proof.
  revert acc. induction s as [|c s IH]; intros acc; cbn [app dec_digits]; [reflexivity|].
  destruct (is_digit c); [|reflexivity]. cbv zeta. destruct (_ <? b); [apply IH|reflexivity].
Qed.

Lemma dec_digits_spec b s : 0 < b ->
  dec_digits b 0 s = match dec_value s with Some v => if v <? b then Some v else None | None => None end.
Proof.
  intros Hb. induction s as [|c s IH] using rev_ind.
  - cbn. destruct (N.ltb_spec 0 b); [reflexivity|lia].
  - rewrite dec_digits_app, IH, dec_value_snoc. cbn [dec_digits]. unfold dec_digit_value, is_digit, between.
    destruct (dec_value s) as [u|]; [|destruct ((48 <=? c) && (c <=? 57)); reflexivity].
    destruct ((48 <=? c) && (c <=? 57)) eqn:Ed; [|destruct (u <? b); reflexivity].
    destruct (N.ltb_spec u b).
    + replace (u * 10 + (c - 48)) with (c - 48 + 10 * u) by lia. reflexivity.
    + destruct (N.ltb_spec (c - 48 + 10 * u) b); [lia|reflexivity].
Qed.

Lemma parse_dec_spec b s v : 0 < b -> parse_dec b s = Some v <-> dec_field s v /\ v < b.
Proof.
  intros Hb. unfold dec_field. split.
  - assert (forall s, dec_digits b 0 s = Some v -> dec_value s = Some v /\ v < b) as H.
    { intros t H. rewrite dec_digits_spec in H by exact Hb. destruct (dec_value t) as [u|]; [|discriminate].
      destruct (N.ltb_spec u b); [|discriminate]. injection H as ->. split; [reflexivity|assumption]. }
    unfold parse_dec. destruct s as [|c [|c' r]]; [discriminate| |].
    + destruct ((c =? 43) || (c =? 45)) eqn:E; [discriminate|]. intros Hd. apply H in Hd as [Hd Hv].
      split; [|exact Hv]. exists [], [c]. repeat split; [left; reflexivity|discriminate|exact Hd].
    + destruct (N.eqb_spec c 43) as [->|Hne]; intros Hd; apply H in Hd as [Hd Hv]; (split; [|exact Hv]).
      * exists [43], (c' :: r). repeat split; [right; reflexivity|discriminate|exact Hd].
      * exists [], (c :: c' :: r). repeat split; [left; reflexivity|discriminate|exact Hd].
  - intros [(sign & digits & -> & Hsign & Hne & Hv) Hvb].
    assert (dec_digits b 0 digits = Some v) as Hd.
    { rewrite dec_digits_spec by exact Hb. rewrite Hv. destruct (N.ltb_spec v b); [reflexivity|lia]. }
    destruct Hsign as [->| ->]; cbn [app].
    + destruct digits as [|c r]; [contradiction|]. unfold parse_dec.
      assert (is_digit c = true) as Hc by (cbn [dec_digits] in Hd; destruct (is_digit c); [reflexivity|discriminate]).
      unfold is_digit, between in Hc.
      destruct (N.eqb_spec c 43) as [->|_]; [discriminate|].
      destruct (N.eqb_spec c 45) as [->|_]; [discriminate|].
      destruct r; exact Hd.
    + destruct digits as [|c r]; [contradiction|]. unfold parse_dec. rewrite N.eqb_refl. exact Hd.
Qed.

Lemma dec_value_bound s v : dec_value s = Some v -> v < 10 ^ N.of_nat (List.length s).
Proof.
  revert v. induction s as [|c s IH] using rev_ind; intros v H.
  - injection H as <-. reflexivity.
  - rewrite dec_value_snoc in H. unfold dec_digit_value in H. destruct ((48 <=? c) && (c <=? 57)) eqn:E; [|discriminate].
    destruct (dec_value s) as [u|]; [|discriminate]. injection H as <-. specialize (IH u eq_refl).
    rewrite app_length. cbn [List.length]. rewrite Nat.add_1_r, Nat2N.inj_succ, N.pow_succ_r'.
    apply andb_true_iff in E as [_ E]. apply N.leb_le in E. unfold char in *.
    revert IH. generalize (10 ^ N.of_nat (List.length s)). intros n Hn. change (c - 48 + 10 * u < 10 * n). lia.
Qed.

Lemma blen_length s : N.of_nat (List.length s) <= blen s.
Proof.
  unfold blen, utf8. induction s as [|c s IH]; [cbn; lia|]. cbn [flat_map List.length]. rewrite app_length.
  assert (1 <= List.length (utf8_char c))%nat.
  { unfold utf8_char. repeat match goal with |- context [if ?b then _ else _] => destruct b end; cbn; lia. }
  lia.
Qed.

Lemma hex_ascii s : Forall (fun c => hex_digit_value c <> None) s -> Forall (fun b => b < 0x80) s.
Proof.
  apply List.Forall_impl. intros c H. unfold hex_digit_value in H.
  destruct ((48 <=? c) && (c <=? 57)) eqn:E1; [lia|]. destruct ((97 <=? c) && (c <=? 102)) eqn:E2; [lia|].
  destruct ((65 <=? c) && (c <=? 70)) eqn:E3; [lia|congruence].
Qed.

Lemma hex_value_zeros n s : hex_value (repeat 48 n ++ s) = hex_value s.
Proof.
  induction s as [|c s IH] using rev_ind.
  - rewrite app_nil_r. unfold hex_value. cbn [rev hex_value_rev].
    induction n as [|n IH]; [reflexivity|]. cbn [repeat rev].
    assert (forall l, hex_value_rev l = Some 0 -> hex_value_rev (l ++ [48]) = Some 0) as Hs.
    { induction l as [|x l IHl]; [reflexivity|]. cbn [hex_value_rev app]. intros H.
      destruct (hex_digit_value x) as [d|]; [|discriminate]. destruct (hex_value_rev l) as [v|]; [|discriminate].
      assert (d + 16 * v = 0) as Hz by (injection H; auto).
      assert (d = 0 /\ v = 0) as [-> ->] by lia. rewrite (IHl eq_refl). reflexivity. }
    apply Hs, IH.
  - rewrite app_assoc, !hex_value_snoc, IH. reflexivity.
Qed.

Lemma jg_trace_spec s v : jg_extract_trace_id s = Some v <-> hex_field s v /\ blen s <= 32 /\ v < 2 ^ 128.
Proof.
  unfold jg_extract_trace_id. destruct (N.ltb_spec 32 (blen s)).
  - split; [discriminate|]. intros (_ & H1 & _). lia.
  - rewrite tid_spec. tauto.
Qed.

Lemma jg_span_spec s v : jg_extract_span_id s = Some v <->
  ((blen s = 16 /\ hex_field s v) \/ (blen s < 16 /\ hex_value s = Some v)) /\ v < 2 ^ 64.
Proof.
  unfold jg_extract_span_id. destruct (N.eqb_spec (blen s) 16) as [E|E].
  - rewrite sid_spec. split; [tauto|]. intros [[[_ H]|[H _]] Hb]; [tauto|lia].
  - destruct (N.leb_spec 17 (blen s)) as [L|L].
    + split; [discriminate|]. lia.
    + assert (exists n, (16 - List.length s)%nat = S n) as [n Hn].
      { pose proof (blen_length s). exists (15 - List.length s)%nat. lia. }
      rewrite sid_spec, Hn. cbn [repeat app]. split.
      * intros [(sg & d & Heq & Hsg & Hne & Hv) Hb]. split; [right|exact Hb]. split; [lia|].
        destruct Hsg as [->| ->]; [|discriminate]. cbn [app] in Heq. subst d.
        change (48 :: repeat 48 n ++ s) with (repeat 48 (S n) ++ s) in Hv. rewrite hex_value_zeros in Hv. exact Hv.
      * intros [[[H _]|[_ H]] Hb]; [lia|]. split; [|exact Hb]. exists [], (48 :: repeat 48 n ++ s).
        split; [reflexivity|]. split; [auto|]. split; [discriminate|].
        change (48 :: repeat 48 n ++ s) with (repeat 48 (S n) ++ s). rewrite hex_value_zeros. exact H.
Qed.

Lemma jg_flags_spec s f : jg_extract_flags s = Some f <->
  blen s <= 2 /\ exists d, dec_field s d /\
    f = (if N.testbit d 0 then if N.testbit d 1 then 5 else 1 else 0).
Proof.
  assert (forall d i, (N.land d (2 ^ i) =? 2 ^ i) = N.testbit d i) as Hbit.
  { intros d i. destruct (N.testbit d i) eqn:E.
    - apply N.eqb_eq. apply N.bits_inj. intros j. rewrite N.land_spec, N.pow2_bits_eqb.
      destruct (N.eqb_spec i j) as [->|]; [rewrite E; reflexivity|apply andb_false_r].
    - apply N.eqb_neq. intros H. apply (f_equal (fun n => N.testbit n i)) in H.
      rewrite N.land_spec, E, N.pow2_bits_true in H. discriminate. }
  unfold jg_extract_flags. destruct (N.ltb_spec 2 (blen s)) as [L|L].
  - split; [discriminate|]. lia.
  - split.
    + destruct (parse_dec 256 s) as [d|] eqn:E; [|discriminate]. apply parse_dec_spec in E as [E _]; [|lia].
      pose proof (Hbit d 0) as H0. pose proof (Hbit d 1) as H1. change (2 ^ 0) with 1 in H0. change (2 ^ 1) with 2 in H1.
      rewrite H0, H1. intros H. split; [exact L|]. exists d. split; [exact E|].
      destruct (N.testbit d 0), (N.testbit d 1); injection H as <-; reflexivity.
    + intros (_ & d & Hd & ->).
      assert (d < 256) as Hb.
      { destruct Hd as (sg & ds & -> & Hsg & _ & Hv). apply dec_value_bound in Hv.
        pose proof (blen_length (sg ++ ds)) as Hl. rewrite app_length in Hl.
        assert (List.length ds <= 2)%nat as Hl2 by lia.
        assert (10 ^ N.of_nat (List.length ds) <= 10 ^ 2) by (apply N.pow_le_mono_r; lia). lia. }
      assert (parse_dec 256 s = Some d) as -> by (apply parse_dec_spec; [lia|auto]).
      pose proof (Hbit d 0) as H0. pose proof (Hbit d 1) as H1. change (2 ^ 0) with 1 in H0. change (2 ^ 1) with 2 in H1.
      rewrite H0, H1. destruct (N.testbit d 0), (N.testbit d 1); reflexivity.
Qed.

Definition jg_decoded (h : str) : str := if existsb (N.eqb COLON) h then h else replace_pct3A h.

Lemma hexv_lacks c s v : hex_digit_value c = None -> hex_value s = Some v -> lacks c s.
Proof. intros Hc Hv Hin. apply hex_value_chars in Hv. rewrite List.Forall_forall in Hv. apply Hv in Hin. contradiction. Qed.

Lemma dec_field_lacks s v : dec_field s v -> lacks 58 s /\ s <> [].
Proof.
  intros (sg & d & -> & Hsg & Hne & Hv). split.
  - intros Hin. apply in_app_iff in Hin as [Hin|Hin].
    + destruct Hsg as [->| ->]; [destruct Hin|]. destruct Hin as [Hin|[]]. discriminate.
    + clear Hne. revert v Hv. induction d as [|c d IH] using rev_ind; intros v Hv; [destruct Hin|].
      rewrite dec_value_snoc in Hv. destruct (dec_digit_value c) eqn:E; [|discriminate].
      destruct (dec_value d) as [u|]; [|discriminate].
      apply in_app_iff in Hin as [Hin|[->|[]]]; [exact (IH Hin u eq_refl)|discriminate].
  - destruct sg; [exact Hne|discriminate].
Qed.

Lemma jg_extract_spec (j : jaeger) (order : list str) (c : carrier) sc : jg_extract_sc j order c = Some sc <->
  exists t s f st, jg_text (jg_decoded (cr_get_or (jg_header j) [] c)) t s f /\
    ts_from_key_value (jg_state_pairs j order c) = Ok st /\ sc = mk_sc t s f true st.
Proof.
  unfold jg_extract_sc. cbv zeta. set (h := cr_get_or (jg_header j) [] c).
  change (if existsb (N.eqb COLON) h then h else replace_pct3A h) with (jg_decoded h).
  change COLON with 58. unfold jg_text, jg_extract_state. split.
  - destruct (split_terminator 58 (jg_decoded h)) as [|p0 [|p1 [|p2 [|p3 [|p4 r]]]]] eqn:Es; try discriminate.
    destruct (jg_extract_trace_id p0) as [t|] eqn:E0; [|discriminate].
    destruct (jg_extract_span_id p1) as [s|] eqn:E1; [|discriminate].
    destruct (jg_extract_flags p3) as [f|] eqn:E3; [|discriminate].
    destruct (ts_from_key_value _) as [st|] eqn:E4; [|discriminate]. intros H. injection H as <-.
    apply jg_trace_spec in E0 as (E0 & B0 & C0). apply jg_span_spec in E1 as [E1 B1]. apply jg_flags_spec in E3 as (B3 & d & E3 & ->).
    pose proof (dec_field_lacks _ _ E3) as [_ N3]. apply split_term_iff in Es as [Hl Es]; [|discriminate|exact N3].
    exists t, s, (if N.testbit d 0 then if N.testbit d 1 then 5 else 1 else 0), st. split; [|auto].
    exists p0, p1, p2, p3. assert (~ In 58 p2) as L2 by (inversion Hl as [|? ? _ Hl1]; inversion Hl1 as [|? ? _ Hl2]; inversion Hl2; assumption).
    destruct Es as [->| ->]; [exists []|exists [58]]; (split; [lapp|]);
      (split; [auto|]); (split; [exact L2|]); (split; [exact E0|]); (split; [exact B0|]); (split; [exact C0|]);
      (split; [exact E1|]); (split; [exact B1|]); (split; [exact B3|]); eauto.
  - intros (t & s & f & st & (p0 & p1 & p2 & p3 & tr & Hh & Htr & L2 & E0 & B0 & C0 & E1 & B1 & B3 & d & E3 & Hf) & Hst & ->).
    pose proof (dec_field_lacks _ _ E3) as [L3 N3].
    assert (split_terminator 58 (jg_decoded h) = [p0; p1; p2; p3]) as ->.
    { apply split_term_iff; [discriminate|exact N3|]. split.
      - constructor; [eapply hex_field_lacks; [reflexivity|discriminate|exact E0]|].
        constructor; [|constructor; [exact L2|constructor; [exact L3|constructor]]].
        destruct E1 as [[_ E1]|[_ E1]]; [eapply hex_field_lacks; [reflexivity|discriminate|exact E1]|].
        eapply hexv_lacks; [reflexivity|exact E1].
      - rewrite Hh. destruct Htr as [->| ->]; [left|right]; lapp. }
    assert (jg_extract_trace_id p0 = Some t) as -> by (apply jg_trace_spec; auto).
    assert (jg_extract_span_id p1 = Some s) as -> by (apply jg_span_spec; auto).
    assert (jg_extract_flags p3 = Some f) as -> by (apply jg_flags_spec; eauto).
    rewrite Hst. reflexivity.
Qed.

(** * "%3A" *)

Lemma replace_no_pct s : ~ In 37 s -> replace_pct3A s = s.
Proof.
  induction s as [|a r IH]; intros H; [reflexivity|].
  assert (replace_pct3A r = r) as E by (apply IH; intros X; apply H; right; exact X).
  cbn [replace_pct3A]. rewrite E. destruct r as [|b [|c r']]; [reflexivity|reflexivity|].
  destruct (N.eqb_spec a 37) as [->|_]; [exfalso; apply H; left; reflexivity|]. reflexivity.
Qed.

Lemma replace_app s r : ~ In 37 s -> replace_pct3A (s ++ of_string "%3A" ++ r) = s ++ 58 :: replace_pct3A r.
Proof.
  induction s as [|a s IH]; intros H.
  - reflexivity.
  - assert (replace_pct3A (s ++ of_string "%3A" ++ r) = s ++ 58 :: replace_pct3A r) as E
      by (apply IH; intros X; apply H; right; exact X).
    change ((a :: s) ++ of_string "%3A" ++ r) with (a :: (s ++ of_string "%3A" ++ r)).
    cbn [replace_pct3A]. rewrite E.
    destruct (s ++ of_string "%3A" ++ r) as [|b [|c r']] eqn:Es.
    + reflexivity.
    + reflexivity.
    + destruct (N.eqb_spec a 37) as [->|_]; [exfalso; apply H; left; reflexivity|]. reflexivity.
Qed.

Lemma replace_join ps : Forall (fun p => ~ In 37 p) ps ->
  replace_pct3A (join (of_string "%3A") ps) = join [58] ps.
Proof.
  induction ps as [|p r IH]; intros H; [reflexivity|]. inversion H as [|? ? Hp Hr]; subst.
  destruct r as [|q r].
  - cbn [join]. apply replace_no_pct, Hp.
  - change (join (of_string "%3A") (p :: q :: r)) with (p ++ of_string "%3A" ++ join (of_string "%3A") (q :: r)).
    rewrite replace_app by exact Hp. rewrite (IH Hr). reflexivity.
Qed.

Lemma existsb_in c s : existsb (N.eqb c) s = true <-> In c s.
Proof.
  rewrite existsb_exists. split.
  - intros (x & Hx & E). apply N.eqb_eq in E. subst. exact Hx.
  - intros H. exists c. split; [exact H|apply N.eqb_refl].
Qed.

Lemma decoded_plain h : In 58 h -> jg_decoded h = h.
Proof. intros H. unfold jg_decoded. apply existsb_in in H. change COLON with 58. rewrite H. reflexivity. Qed.

Lemma decoded_encoded h h' : pct_encoded h h' -> ~ In 58 h' -> jg_decoded h' = h.
Proof.
  intros (ps & -> & -> & Hp) Hn. unfold jg_decoded. change COLON with 58.
  destruct (existsb (N.eqb 58) (join (of_string "%3A") ps)) eqn:E; [apply existsb_in in E; contradiction|].
  apply replace_join, Hp.
Qed.

(** * Jaeger round trip *)

Definition jg_value (sc : span_context) : str :=
  trace_id_display (sc_trace sc) ++ [58] ++ span_id_display (sc_span sc) ++ [58] ++ of_string "0" ++ [58] ++
  of_string (if sampled_bit (sc_flags sc) then if debug_bit (sc_flags sc) then "3" else "1" else "0").

Lemma jg_inject_value {V : Type} (j : jaeger) (cx : context span_context V) (c : carrier) :
  sc_is_valid (cx_span_context cx) = true ->
  jg_inject j cx c = cr_set (jg_header j) (jg_value (cx_span_context cx)) c.
Proof.
  intros H. unfold jg_inject. cbv zeta. rewrite H. unfold jg_value.
  destruct (has_flag_bits (sc_flags (cx_span_context cx))) as (_ & -> & Hs). unfold sc_is_sampled. rewrite Hs.
  destruct (sampled_bit (sc_flags (cx_span_context cx))), (debug_bit (sc_flags (cx_span_context cx))); reflexivity.
Qed.

Lemma jg_value_text sc : sc_typed sc = true ->
  jg_text (jg_value sc) (sc_trace sc) (sc_span sc) (jg_returned (sc_flags sc)).
Proof.
  intros Ht. destruct (typed_bounds sc Ht) as [B1 B2].
  unfold jg_value, jg_text.
  exists (trace_id_display (sc_trace sc)), (span_id_display (sc_span sc)), (of_string "0"),
    (of_string (if sampled_bit (sc_flags sc) then if debug_bit (sc_flags sc) then "3" else "1" else "0")), [].
  split; [rewrite app_nil_r; reflexivity|]. split; [auto|]. split; [intros [H|[]]; discriminate|].
  split; [apply pad_field; [exact B1|lia]|]. split; [unfold trace_id_display; rewrite pad_blen; lia|]. split; [exact B1|].
  split; [left; split; [apply pad_blen|apply pad_field; [exact B2|lia]]|]. split; [exact B2|].
  unfold jg_returned. destruct (sampled_bit (sc_flags sc)), (debug_bit (sc_flags sc)).
  - split; [discriminate|]. exists 3. split; [|reflexivity]. exists [], (of_string "3"). repeat split; auto; discriminate.
  - split; [discriminate|]. exists 1. split; [|reflexivity]. exists [], (of_string "1"). repeat split; auto; discriminate.
  - split; [discriminate|]. exists 0. split; [|reflexivity]. exists [], (of_string "0"). repeat split; auto; discriminate.
  - split; [discriminate|]. exists 0. split; [|reflexivity]. exists [], (of_string "0"). repeat split; auto; discriminate.
Qed.

Lemma jg_roundtrip {V : Type} (j : jaeger) (order : list str) (cx : context span_context V) (c c' : carrier) sc st :
  cx_span_context cx = sc -> sc_typed sc = true -> sc_is_valid sc = true ->
  jg_inject j cx c = c' -> ts_from_key_value (jg_state_pairs j order c') = Ok st ->
  jg_extract_sc j order c' = Some (mk_sc (sc_trace sc) (sc_span sc) (jg_returned (sc_flags sc)) true st).
Proof.
  intros Hsc Ht Hv Hi Hst. apply jg_extract_spec. subst sc. rewrite (jg_inject_value j cx c Hv) in Hi.
  exists (sc_trace (cx_span_context cx)), (sc_span (cx_span_context cx)), (jg_returned (sc_flags (cx_span_context cx))), st.
  split; [|split; [exact Hst|reflexivity]].
  assert (cr_get_or (jg_header j) [] c' = jg_value (cx_span_context cx)) as ->.
  { subst c'. unfold cr_get_or. rewrite cr_get_set_same. reflexivity. }
  rewrite decoded_plain; [apply jg_value_text, Ht|]. unfold jg_value. apply in_app_iff. right. left. reflexivity.
Qed.

(** No header with the baggage prefix: no trace state. *)
Lemma jg_no_pairs (j : jaeger) (order : list str) c : (forall k, In k order -> starts_with (jg_prefix j) k = false) ->
  jg_state_pairs j order c = [].
Proof.
  intros H. unfold jg_state_pairs. induction order as [|k r IH]; [reflexivity|]. cbn [List.filter].
  rewrite H by (left; reflexivity). apply IH. intros k' Hk. apply H. right. exact Hk.
Qed.

(** * Slots and composites *)

Lemma w3c_slot {V : Type} : span_slot (V:=V) w3c_propagator w3c_extract_span_context.
Proof. intros cx c. reflexivity. Qed.
Lemma jg_slot {V : Type} (j : jaeger) (ord : carrier -> list str) : span_slot (V:=V) (jg_propagator j ord) (fun c => jg_extract_sc j (ord c) c).
Proof. intros cx c. reflexivity. Qed.
Lemma bg_slot (ord : baggage -> list (str * bg_entry)) : value_slot TY_BAGGAGE_CONTEXT_VALUE (bg_propagator ord)
  (fun c => option_map bg_extract (cr_get BAGGAGE_HEADER c)).
Proof. intros cx c. cbn [pr_extract bg_propagator]. unfold bg_extract_with_context, cx_with_baggage. destruct (cr_get BAGGAGE_HEADER c); reflexivity. Qed.

Lemma slots_commute {V : Type} (t : type_id) (p q : propagator V) (f : carrier -> option span_context) (g : carrier -> option V) (cx : context span_context V) (c : carrier) :
  span_slot p f -> value_slot t q g ->
  pr_extract q (pr_extract p cx c) c = pr_extract p (pr_extract q cx c) c.
Proof. intros Hp Hq. rewrite !Hp, !Hq. destruct (f c), (g c); reflexivity. Qed.

Lemma writes_commute {V : Type} (p q : propagator V) (np nq : list str) (cx : context span_context V) (c : carrier) :
  writes_only p np -> writes_only q nq -> local_writes p -> local_writes q ->
  (forall k, In k np -> In k nq -> False) ->
  pr_inject q cx (pr_inject p cx c) = pr_inject p cx (pr_inject q cx c).
Proof.
  intros Wp Wq Lp Lq Hd. apply map_eq. intros k.
  destruct (in_dec str_eq_dec k np) as [Hp|Hp].
  - rewrite (Wq cx (pr_inject p cx c) k) by (intros Hq; exact (Hd k Hp Hq)).
    apply Lp. symmetry. apply Wq. intros Hq. exact (Hd k Hp Hq).
  - rewrite (Wp cx (pr_inject q cx c) k Hp). apply Lq. apply Wp, Hp.
Qed.

Lemma set_writes k k' v (c : carrier) : to_lower k <> k' -> cr_set k v c !! k' = c !! k'.
Proof. apply lookup_insert_ne. Qed.
Lemma set_local k v (c c' : carrier) k' : c !! k' = c' !! k' -> cr_set k v c !! k' = cr_set k v c' !! k'.
Proof.
  intros H. unfold cr_set. destruct (str_eq_dec (to_lower k) k') as [<-|Hn].
  - rewrite !lookup_insert. reflexivity.
  - rewrite !lookup_insert_ne by exact Hn. exact H.
Qed.

Lemma w3c_writes {V : Type} : writes_only (V:=V) w3c_propagator [TRACEPARENT; TRACESTATE].
Proof.
  intros cx c k H. cbn [pr_inject w3c_propagator]. unfold w3c_inject. cbv zeta.
  destruct (sc_is_valid _); [|reflexivity]. cbn [In] in H.
  rewrite !set_writes; [reflexivity| |]; intros E; apply H; [left|right; left]; rewrite <- E; reflexivity.
Qed.
Lemma w3c_local {V : Type} : local_writes (V:=V) w3c_propagator.
Proof.
  intros cx c c' k H. cbn [pr_inject w3c_propagator]. unfold w3c_inject. cbv zeta.
  destruct (sc_is_valid _); [|exact H]. apply set_local, set_local, H.
Qed.
Lemma jg_writes {V : Type} (j : jaeger) (ord : carrier -> list str) : writes_only (V:=V) (jg_propagator j ord) [to_lower (jg_header j)].
Proof.
  intros cx c k H. cbn [pr_inject jg_propagator]. unfold jg_inject. cbv zeta.
  destruct (sc_is_valid _); [|reflexivity]. apply set_writes. intros E. apply H. left. exact E.
Qed.
Lemma jg_local {V : Type} (j : jaeger) (ord : carrier -> list str) : local_writes (V:=V) (jg_propagator j ord).
Proof.
  intros cx c c' k H. cbn [pr_inject jg_propagator]. unfold jg_inject. cbv zeta.
  destruct (sc_is_valid _); [|exact H]. apply set_local, H.
Qed.
Lemma bg_writes (ord : baggage -> list (str * bg_entry)) : writes_only (bg_propagator ord) [BAGGAGE_HEADER].
Proof.
  intros cx c k H. cbn [pr_inject bg_propagator]. destruct (bg_inject _ _); [|reflexivity].
  apply set_writes. intros E. apply H. left. exact E.
Qed.
Lemma bg_local (ord : baggage -> list (str * bg_entry)) : local_writes (bg_propagator ord).
Proof.
  intros cx c c' k H. cbn [pr_inject bg_propagator]. destruct (bg_inject _ _); [|exact H]. apply set_local, H.
Qed.
Lemma b3_writes {V : Type} (e : b3_encoding) :
  writes_only (V:=V) (b3_propagator e) [B3_SINGLE; B3_TRACE; B3_SPAN; B3_DEBUG; B3_SAMPLED].
Proof. intros cx c k H. apply b3_inject_other, H. Qed.
Lemma b3_local {V : Type} (e : b3_encoding) : local_writes (V:=V) (b3_propagator e).
Proof.
  intros cx c c' k H. cbn [pr_inject b3_propagator]. unfold b3_inject. cbv zeta.
  repeat match goal with |- context [if ?b then _ else _] => destruct b end;
    repeat (apply set_local); exact H.
Qed.

Lemma comp_inject_app {V : Type} (ps qs : list (propagator V)) (cx : context span_context V) (c : carrier) :
  comp_inject (ps ++ qs) cx c = comp_inject qs cx (comp_inject ps cx c).
Proof. apply fold_left_app. Qed.
Lemma comp_extract_app {V : Type} (ps qs : list (propagator V)) (cx : context span_context V) (c : carrier) :
  comp_extract (ps ++ qs) cx c = comp_extract qs (comp_extract ps cx c) c.
Proof. apply fold_left_app. Qed.

Lemma comp_fields_in {V : Type} (ps : list (propagator V)) k :
  In k (comp_fields ps) <-> exists p, In p ps /\ In k (pr_fields p).
Proof. unfold comp_fields. rewrite List.nodup_In, in_flat_map. reflexivity. Qed.

Lemma comp_announces {V : Type} (ps : list (propagator V)) :
  Forall announces ps -> announces (composite ps).
Proof.
  intros H cx c k Hk. cbn [pr_inject composite]. cbn [pr_fields composite] in Hk.
  assert (forall p, In p ps -> ~ In k (map to_lower (pr_fields p))) as Hn.
  { intros p Hp Hin. apply Hk. apply in_map_iff in Hin as (x & <- & Hx). apply in_map.
    apply comp_fields_in. eauto. }
  clear Hk. unfold comp_inject. revert c. induction ps as [|p r IH]; intros c; [reflexivity|].
  inversion H as [|? ? Hp Hr]; subst. cbn [fold_left]. rewrite IH; [|exact Hr|intros q Hq; apply Hn; right; exact Hq].
  apply Hp, Hn. left. reflexivity.
Qed.

(** Several span propagators: the last one that recognises its header wins. *)
Fixpoint last_some {A : Type} (l : list (option A)) : option A :=
  match l with
  | [] => None
  | x :: r => match last_some r with Some y => Some y | None => x end
  end.

Lemma comp_last {V : Type} (ps : list (propagator V)) (fs : list (carrier -> option span_context)) (cx : context span_context V) (c : carrier) :
  Forall2 span_slot ps fs ->
  comp_extract ps cx c =
    match last_some (map (fun f => f c) fs) with Some s => cx_with_span s cx | None => cx end.
Proof.
  intros H. revert cx. unfold comp_extract. induction H as [|p f ps fs Hp H IH]; intros cx; [reflexivity|].
  cbn [fold_left map last_some]. rewrite IH, (Hp cx c).
  destruct (last_some (map (fun f0 => f0 c) fs)), (f c); reflexivity.
Qed.

(** W3C and baggage in one composite: both survive. *)
Lemma comp_w3c_baggage (ord : baggage -> list (str * bg_entry)) (cx cx' : context span_context baggage) (c : carrier) :
  comp_extract [bg_propagator ord; w3c_propagator] cx' (comp_inject [bg_propagator ord; w3c_propagator] cx c) =
  w3c_extract (bg_extract_with_context cx'
    (match bg_inject (cx_baggage cx) (ord (cx_baggage cx)) with Some h => Some h | None => cr_get BAGGAGE_HEADER c end))
    (w3c_inject cx c).
Proof.
  unfold comp_extract, comp_inject. cbn [fold_left pr_inject pr_extract bg_propagator w3c_propagator].
  assert (forall c0 : carrier, cr_get BAGGAGE_HEADER (w3c_inject cx c0) = cr_get BAGGAGE_HEADER c0) as Hb.
  { intros c0. unfold w3c_inject. cbv zeta. destruct (sc_is_valid _); [|reflexivity].
    rewrite !cr_get_set_other by discriminate. reflexivity. }
  assert (forall h cy, w3c_extract (V:=baggage) cy (w3c_inject cx (cr_set BAGGAGE_HEADER h c)) = w3c_extract cy (w3c_inject cx c)) as He.
  { intros h cy. unfold w3c_extract.
    assert (w3c_extract_span_context (w3c_inject cx (cr_set BAGGAGE_HEADER h c)) = w3c_extract_span_context (w3c_inject cx c)) as ->; [|reflexivity].
    unfold w3c_extract_span_context, w3c_inject. cbv zeta. destruct (sc_is_valid (cx_span_context cx));
      repeat first [rewrite cr_get_set_same | rewrite cr_get_set_other by discriminate]; reflexivity. }
  destruct (bg_inject _ _) as [h|].
  - rewrite He, Hb, cr_get_set_same. reflexivity.
  - rewrite Hb. reflexivity.
Qed.
