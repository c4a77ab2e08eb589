From Coq Require Import String List Arith NArith Bool Lia.
From Coq Require Import ZifyBool ZifyNat ZifyN.
From stdpp Require Import base gmap.
From Verif Require Import Str StrProofs ContextModel Carrier TraceModel TraceSpec TraceProofs W3CModel W3CSpec.
Import ListNotations.
Local Open Scope N_scope.

Lemma cr_get_set_same k v c : cr_get k (cr_set k v c) = Some v.
Proof. apply lookup_insert. Qed.
Lemma cr_get_set_other k k' v c : to_lower k <> to_lower k' -> cr_get k' (cr_set k v c) = cr_get k' c.
Proof. intros H. apply lookup_insert_ne, H. Qed.

(** * Splitting the header *)

Lemma split_cons_inv c s p ps : split c s = p :: ps ->
  lacks c p /\ ((ps = [] /\ s = p) \/ (exists b, s = p ++ c :: b /\ split c b = ps)).
Proof.
  revert p ps. induction s as [|x r IH]; intros p ps H; cbn [split] in H.
  - injection H as <- <-. split; [intros []|]. left. auto.
  - destruct (N.eqb_spec x c) as [->|Hx].
    + injection H as <- <-. split; [intros []|]. right. exists r. auto.
    + destruct (split c r) as [|q qs] eqn:E; [destruct (split_nonempty c r E)|].
      injection H as <- <-. destruct (IH q qs eq_refl) as [Hl H]. split.
      * intros [->|Hin]; [contradiction|]. exact (Hl Hin).
      * destruct H as [[-> ->]|(b & -> & Hb)]; [left; auto|right; exists b; auto].
Qed.

Lemma split_term_cons_inv c s p ps : split_terminator c s = p :: ps ->
  lacks c p /\ ((ps = [] /\ (s = p \/ s = p ++ [c])) \/
                (exists b, s = p ++ c :: b /\ split_terminator c b = ps)).
Proof.
  unfold split_terminator. destruct (split c s) as [|q qs] eqn:E; [discriminate|].
  apply split_cons_inv in E as [Hl E]. intros H.
  assert (p = q /\ ps = drop_last_empty qs \/ (q = [] /\ qs = [])) as Hc.
  { destruct q as [|x q], qs as [|y qs]; cbn [drop_last_empty] in H.
    - auto.
    - injection H as <- <-. left. auto.
    - injection H as <- <-. left. auto.
    - injection H as <- <-. left. auto. }
  destruct Hc as [[-> ->]|[-> ->]]; [|discriminate]. split; [exact Hl|].
  destruct E as [[-> ->]|(b & -> & <-)]; [left; auto|]. right. exists b. auto.
Qed.

Lemma split_term_app c p b : lacks c p -> (p <> [] \/ True) ->
  split_terminator c (p ++ c :: b) = p :: split_terminator c b.
Proof.
  intros H _. unfold split_terminator. rewrite split_app by exact H.
  destruct (split c b) as [|y ys] eqn:E; [destruct (split_nonempty c b E)|].
  destruct p; reflexivity.
Qed.

Lemma split_term_lacks c p : lacks c p -> p <> [] -> split_terminator c p = [p].
Proof. intros H Hne. unfold split_terminator. rewrite split_lacks by exact H. destruct p; [congruence|reflexivity]. Qed.

Lemma split_term_nil c : split_terminator c [] = [].
Proof. reflexivity. Qed.

Lemma split_term_nonempty c s : s <> [] -> split_terminator c s <> [].
Proof.
  destruct s as [|x r]; [congruence|]. intros _. unfold split_terminator. cbn [split].
  destruct (x =? c); destruct (split c r) as [|q qs] eqn:E; try (destruct (split_nonempty c r E)); discriminate.
Qed.

Lemma four_parts s p0 p1 p2 p3 rest : p3 <> [] ->
  split_terminator 45 s = p0 :: p1 :: p2 :: p3 :: rest <->
  exists tail, s = p0 ++ [45] ++ p1 ++ [45] ++ p2 ++ [45] ++ p3 ++ tail /\
    no_dash p0 /\ no_dash p1 /\ no_dash p2 /\ no_dash p3 /\
    ((rest = [] /\ (tail = [] \/ tail = [45])) \/
     (exists r, tail = 45 :: r /\ split_terminator 45 r = rest)).
Proof.
  intros H3. unfold no_dash. change (fun s => ~ In 45 s) with (lacks 45). split.
  - intros H. apply split_term_cons_inv in H as [H0 [[? _]|(b0 & -> & H)]]; [discriminate|].
    apply split_term_cons_inv in H as [H1 [[? _]|(b1 & -> & H)]]; [discriminate|].
    apply split_term_cons_inv in H as [H2 [[? _]|(b2 & -> & H)]]; [discriminate|].
    apply split_term_cons_inv in H as [H4 [[-> [->| ->]]|(b3 & -> & H)]].
    + exists []. rewrite app_nil_r. repeat (split; [assumption || reflexivity|]). left. auto.
    + exists [45]. repeat (split; [assumption || reflexivity|]). left. auto.
    + exists (45 :: b3). repeat (split; [assumption || reflexivity|]). right. eauto.
  - intros (tail & -> & H0 & H1 & H2 & H4 & H). cbn [app].
    rewrite !split_term_app by (assumption || auto). do 3 f_equal.
    destruct H as [[-> [->| ->]]|(r & -> & <-)].
    + rewrite app_nil_r. apply split_term_lacks; assumption.
    + rewrite split_term_app by auto. reflexivity.
    + apply split_term_app; auto.
Qed.

(** * Extraction *)

Lemma has_upper_spec s : has_upper s = false <-> no_upper s.
Proof.
  unfold has_upper, no_upper. rewrite <- not_true_iff_false, existsb_exists, List.Forall_forall. split.
  - intros H c Hc Hu. apply H. exists c. split; [exact Hc|]. unfold is_upper, between. lia.
  - intros H (c & Hc & Hu). apply (H c Hc). unfold is_upper, between in Hu. lia.
Qed.

Lemma hex_field_nonempty s v : hex_field s v -> s <> [].
Proof. intros (sg & d & -> & _ & Hd & _). destruct sg; [exact Hd|discriminate]. Qed.

Lemma hex_field_fun s v w : hex_field s v -> hex_field s w -> v = w.
Proof.
  intros Hv Hw.
  assert (parse_hex (N.succ (N.max v w)) s = Some v) as E1 by (apply parse_hex_spec; [lia|]; split; [exact Hv|lia]).
  assert (parse_hex (N.succ (N.max v w)) s = Some w) as E2 by (apply parse_hex_spec; [lia|]; split; [exact Hw|lia]).
  congruence.
Qed.

Lemma u8_spec s v : parse_u8_hex s = Some v <-> hex_field s v /\ v < 256.
Proof. apply parse_hex_spec. lia. Qed.
Lemma tid_spec s v : trace_id_from_hex s = Some v <-> hex_field s v /\ v < 2 ^ 128.
Proof. apply parse_hex_spec. reflexivity. Qed.
Lemma sid_spec s v : span_id_from_hex s = Some v <-> hex_field s v /\ v < 2 ^ 64.
Proof. apply parse_hex_spec. reflexivity. Qed.

Definition header_or_empty (c : carrier) : str :=
  match cr_get TRACEPARENT c with Some h => h | None => [] end.

Lemma land_sampled opts : N.land opts SAMPLED = opts mod 2.
Proof. apply land_1. Qed.

(** Extraction succeeds exactly on [accepted_traceparent] with non-zero ids,
    and returns what is written there. *)
Lemma extract_spec c sc :
  w3c_extract_span_context c = Some sc <->
  exists version tid sid opts,
    accepted_traceparent (header_or_empty c) version tid sid opts /\
    tid <> 0 /\ sid <> 0 /\
    sc = mk_sc tid sid (opts mod 2) true (state_of_header (cr_get TRACESTATE c)).
Proof.
  unfold w3c_extract_span_context. fold (header_or_empty c).
  change (match cr_get TRACESTATE c with Some s => match ts_from_str s with Ok t => t | Err _ => None end | None => None end)
    with (state_of_header (cr_get TRACESTATE c)).
  unfold accepted_traceparent. split.
  - destruct (split_terminator DASH (trim (header_or_empty c))) as [|p0 [|p1 [|p2 [|p3 rest]]]] eqn:Es; try discriminate.
    destruct (parse_u8_hex p0) as [version|] eqn:E0; [|discriminate].
    destruct ((MAX_VERSION <? version) || _) eqn:Ev; [discriminate|].
    destruct (has_upper p1) eqn:U1; [discriminate|]. destruct (trace_id_from_hex p1) as [tid|] eqn:E1; [|discriminate].
    destruct (has_upper p2) eqn:U2; [discriminate|]. destruct (span_id_from_hex p2) as [sid|] eqn:E2; [|discriminate].
    destruct (parse_u8_hex p3) as [opts|] eqn:E3; [|discriminate].
    destruct ((version =? 0) && (2 <? opts)) eqn:Eo; [discriminate|]. cbv zeta.
    destruct (sc_is_valid _) eqn:Evalid; [|discriminate]. intros H. injection H as <-.
    apply u8_spec in E0 as [E0 _]. apply tid_spec in E1 as [E1 B1]. apply sid_spec in E2 as [E2 B2].
    apply u8_spec in E3 as [E3 B3]. apply has_upper_spec in U1, U2.
    apply four_parts in Es as (tail & Ht & H0 & H1 & H2 & H3 & Htail); [|eapply hex_field_nonempty; exact E3].
    exists version, tid, sid, opts. unfold sc_is_valid in Evalid. cbn [sc_trace sc_span] in Evalid.
    split; [|rewrite land_sampled; repeat split; lia].
    exists p0, p1, p2, p3, tail. unfold MAX_VERSION in Ev.
    repeat (split; [assumption|]). split.
    { destruct Htail as [[-> [->| ->]]|(r & -> & Hr)]; [auto|auto|].
      destruct (N.eqb_spec version 0) as [->|Hv]; [|right; right; eauto].
      right; left. destruct r as [|x r]; [reflexivity|].
      destruct rest; [|exfalso; cbn in Ev; lia].
      exfalso. apply (split_term_nonempty 45 (x :: r)); [discriminate|exact Hr]. }
    repeat (split; [assumption || lia|]). lia.
  - intros (version & tid & sid & opts & (p0 & p1 & p2 & p3 & tail & Ht & H0 & H1 & H2 & H3 & Htail & E0 & Ev & E1 & B1 & U1 & E2 & B2 & U2 & E3 & B3 & Eo) & Ntid & Nsid & ->).
    assert (exists rest, split_terminator 45 (trim (header_or_empty c)) = p0 :: p1 :: p2 :: p3 :: rest /\ (version = 0 -> rest = [])) as (rest & Es & Hrest).
    { destruct Htail as [->|[->|[Hv (r & ->)]]].
      - exists []. split; [|auto]. apply four_parts; [eapply hex_field_nonempty; exact E3|]. exists []. repeat (split; [assumption|]). auto.
      - exists []. split; [|auto]. apply four_parts; [eapply hex_field_nonempty; exact E3|]. exists [45]. repeat (split; [assumption|]). auto.
      - exists (split_terminator 45 r). split; [|intros; contradiction].
        apply four_parts; [eapply hex_field_nonempty; exact E3|]. exists (45 :: r). repeat (split; [assumption|]). right. eauto. }
    unfold DASH. rewrite Es.
    assert (parse_u8_hex p0 = Some version) as -> by (apply u8_spec; split; [assumption|lia]).
    match goal with |- (if ?b then _ else _) = _ => assert (b = false) as -> end.
    { unfold MAX_VERSION. destruct (N.eqb_spec version 0) as [->|Hv]; [rewrite Hrest by reflexivity; reflexivity|lia]. }
    apply has_upper_spec in U1, U2. rewrite U1, U2.
    assert (trace_id_from_hex p1 = Some tid) as -> by (apply tid_spec; auto).
    assert (span_id_from_hex p2 = Some sid) as -> by (apply sid_spec; auto).
    assert (parse_u8_hex p3 = Some opts) as -> by (apply u8_spec; auto).
    assert ((version =? 0) && (2 <? opts) = false) as ->.
    { destruct (N.eqb_spec version 0); [|reflexivity]. cbn [andb]. lia. }
    cbv zeta. rewrite land_sampled.
    assert (sc_is_valid (mk_sc tid sid (opts mod 2) true (state_of_header (cr_get TRACESTATE c))) = true) as ->.
    { unfold sc_is_valid. cbn [sc_trace sc_span]. lia. }
    reflexivity.
Qed.

(** * Injection and the round trip *)

Lemma lower_tp : to_lower TRACEPARENT <> to_lower TRACESTATE.
Proof. discriminate. Qed.

Lemma lhex_no_dash s : Forall lower_hex_char s -> no_dash s.
Proof. rewrite List.Forall_forall. intros H Hin. apply H in Hin. unfold lower_hex_char in Hin. lia. Qed.
Lemma lhex_no_upper s : Forall lower_hex_char s -> no_upper s.
Proof. apply List.Forall_impl. intros c. unfold lower_hex_char. lia. Qed.
Lemma lhex_no_ws s : Forall lower_hex_char s -> forallb (fun c => negb (is_ws c)) s = true.
Proof.
  rewrite List.Forall_forall, forallb_forall. intros H c Hc. apply H in Hc. unfold lower_hex_char in Hc.
  unfold is_ws, between. lia.
Qed.

Lemma pad_field w v : v < 16 ^ N.of_nat w -> (0 < w)%nat -> hex_field (hex_pad w v) v.
Proof. intros H Hw. apply (parse_hex_spec (16 ^ N.of_nat w)); [lia|]. apply parse_hex_pad; assumption. Qed.

Lemma header_accepted sc : sc_typed sc = true ->
  accepted_traceparent (w3c_header sc) 0 (sc_trace sc) (sc_span sc) (sc_flags sc mod 2).
Proof.
  unfold sc_typed, two128, two64. intros H.
  assert (sc_trace sc < 2 ^ 128 /\ sc_span sc < 2 ^ 64) as [H1 H2] by lia.
  pose proof (N.mod_upper_bound (sc_flags sc) 2 ltac:(discriminate)) as H3.
  unfold w3c_header, accepted_traceparent, DASH, SUPPORTED_VERSION, trace_id_display, span_id_display.
  rewrite land_sampled.
  exists (hex_pad 2 0), (hex_pad 32 (sc_trace sc)), (hex_pad 16 (sc_span sc)), (hex_pad 2 (sc_flags sc mod 2)), [].
  pose proof (hex_pad_chars 2 0) as C0. pose proof (hex_pad_chars 32 (sc_trace sc)) as C1.
  pose proof (hex_pad_chars 16 (sc_span sc)) as C2. pose proof (hex_pad_chars 2 (sc_flags sc mod 2)) as C3.
  split.
  { rewrite app_nil_r. apply trim_no_ws. rewrite !forallb_app.
    rewrite !andb_true_iff.
    repeat split; first [reflexivity | exact (lhex_no_ws _ C1) | exact (lhex_no_ws _ C2) | exact (lhex_no_ws _ C3)]. }
  repeat (split; [apply lhex_no_dash; assumption|]). split; [auto|].
  split; [apply (pad_field 2 0); [reflexivity|lia]|]. split; [lia|].
  split; [apply pad_field; [exact H1|lia]|]. split; [exact H1|]. split; [apply lhex_no_upper; assumption|].
  split; [apply pad_field; [exact H2|lia]|]. split; [exact H2|]. split; [apply lhex_no_upper; assumption|].
  split; [apply pad_field; [change (16 ^ N.of_nat 2) with 256; lia|lia]|]. lia.
Qed.

Lemma valid_ne sc : sc_is_valid sc = true <-> sc_trace sc <> 0 /\ sc_span sc <> 0.
Proof. unfold sc_is_valid. lia. Qed.

Lemma roundtrip {V} (cx : context span_context V) (c0 : carrier) :
  let sc := cx_span_context cx in
  sc_typed sc = true -> sc_is_valid sc = true -> valid_members (members (sc_state sc)) ->
  w3c_extract_span_context (w3c_inject cx c0) =
  Some (mk_sc (sc_trace sc) (sc_span sc) (sc_flags sc mod 2) true (of_members (members (sc_state sc)))).
Proof.
  intros sc Ht Hv Hm. apply extract_spec. unfold w3c_inject. fold sc. rewrite Hv.
  unfold header_or_empty. rewrite cr_get_set_other by discriminate. rewrite !cr_get_set_same.
  exists 0, (sc_trace sc), (sc_span sc), (sc_flags sc mod 2).
  split; [apply header_accepted, Ht|]. apply valid_ne in Hv as [H1 H2]. repeat (split; [assumption|]).
  cbn [state_of_header]. rewrite (header_roundtrip _ Hm). rewrite N.mod_mod by discriminate. reflexivity.
Qed.

Lemma extract_keeps {V} (cx : context span_context V) c :
  w3c_extract cx c = cx \/
  exists sc, w3c_extract cx c = cx_with_span sc cx /\ sc_is_valid sc = true /\ sc_remote sc = true /\
    (sc_flags sc = 0 \/ sc_flags sc = 1) /\ sc_typed sc = true /\ valid_members (members (sc_state sc)).
Proof.
  unfold w3c_extract. destruct (w3c_extract_span_context c) as [sc|] eqn:E; [|left; reflexivity].
  right. exists sc. split; [reflexivity|]. apply extract_spec in E as (v & tid & sid & o & Ha & Ht & Hs & ->).
  cbn [sc_remote sc_flags sc_state]. split; [apply valid_ne; auto|]. split; [reflexivity|].
  pose proof (N.mod_upper_bound o 2 ltac:(discriminate)) as Ho. split; [lia|].
  destruct Ha as (p0 & p1 & p2 & p3 & tail & _ & _ & _ & _ & _ & _ & _ & _ & _ & B1 & _ & _ & B2 & _ & _ & _ & _).
  split.
  - unfold sc_typed, two128, two64. cbn [sc_trace sc_span sc_flags]. lia.
  - unfold state_of_header. destruct (cr_get TRACESTATE c) as [s|]; [|constructor].
    destruct (ts_from_str s) as [t|] eqn:Es; [|constructor]. apply reach_valid. eapply TRstr, Es.
Qed.

Lemma inject_shape {V} (cx : context span_context V) (c : carrier) :
  let sc := cx_span_context cx in
  (sc_is_valid sc = false -> w3c_inject cx c = c) /\
  (sc_is_valid sc = true ->
     (exists h, cr_get TRACEPARENT (w3c_inject cx c) = Some h /\ strict_traceparent h /\
        exists a, h = a ++ of_string (if N.testbit (sc_flags sc) 0 then "01" else "00")) /\
     cr_get TRACESTATE (w3c_inject cx c) = Some (ts_header (sc_state sc)) /\
     (forall k, k <> TRACEPARENT -> k <> TRACESTATE -> w3c_inject cx c !! k = c !! k)).
Proof.
  intros sc. unfold w3c_inject. fold sc. split; [intros ->; reflexivity|]. intros ->.
  split; [|split].
  - exists (w3c_header sc). rewrite cr_get_set_other by discriminate. split; [apply cr_get_set_same|].
    unfold w3c_header, trace_id_display, span_id_display. rewrite land_sampled. split.
    + exists (hex_pad 32 (sc_trace sc)), (hex_pad 16 (sc_span sc)), (hex_pad 2 (sc_flags sc mod 2)).
      split; [reflexivity|]. rewrite !hex_pad_length. auto 10 using hex_pad_chars.
    + exists (hex_pad 2 0 ++ [DASH] ++ hex_pad 32 (sc_trace sc) ++ [DASH] ++ hex_pad 16 (sc_span sc) ++ [DASH]).
      rewrite <- !app_assoc. do 6 f_equal. rewrite N.bit0_odd.
      pose proof (N.bit0_mod (sc_flags sc)) as Hb. rewrite N.bit0_odd in Hb. rewrite <- Hb.
      destruct (N.odd (sc_flags sc)); reflexivity.
  - apply cr_get_set_same.
  - intros k H1 H2. unfold cr_set. rewrite !lookup_insert_ne; [reflexivity| |];
      intros E; [apply H1|apply H2]; rewrite <- E; reflexivity.
Qed.
