(** Theorems for C09-C16. *)
From Coq Require Import String List Arith NArith Bool Lia.
From Coq Require Import ZifyBool ZifyNat ZifyN.
From stdpp Require Import base gmap.
From Verif Require Import Str StrProofs ContextModel Carrier TraceModel TraceSpec TraceProofs W3CModel W3CSpec W3CProofs.
Import ListNotations.
Local Open Scope N_scope.

(** * C09: members are always valid *)

Theorem C09_members_always_valid : forall t, ts_reach t -> valid_members (members t).
Proof. exact reach_valid. Qed.
Print Assumptions C09_members_always_valid.

Theorem C09_from_key_value_ok : forall l t,
  ts_from_key_value l = Ok t <-> valid_members l /\ t = of_members l.
Proof. exact ts_from_key_value_ok. Qed.
Print Assumptions C09_from_key_value_ok.

(** The error names the first offending member. *)
Theorem C09_from_key_value_err : forall l e,
  ts_from_key_value l = Err e ->
  exists pre k v post, l = pre ++ (k, v) :: post /\ valid_members pre /\
    ((~ lib_key k /\ e = ErrKey k) \/ (lib_key k /\ ~ lib_value v /\ e = ErrValue v)).
Proof. exact ts_from_key_value_err. Qed.
Print Assumptions C09_from_key_value_err.

Theorem C09_from_str_ok : forall s t,
  ts_from_str s = Ok t <->
  exists ms, header_of ms s /\ valid_members (map member_kv ms) /\ t = of_members (map member_kv ms).
Proof. exact ts_from_str_spec. Qed.
Print Assumptions C09_from_str_ok.

Theorem C09_insert_ok : forall t k v, (exists t', ts_insert t k v = Ok t') <-> lib_key k /\ lib_value v.
Proof.
  intros t k v. split.
  - intros [t' H]. apply insert_spec in H as [[_ H]|[(_ & _ & H)|(Hk & Hv & _)]]; [discriminate|discriminate|auto].
  - intros [Hk Hv]. eexists. apply insert_spec. right; right. auto.
Qed.
Print Assumptions C09_insert_ok.

Theorem C09_delete_ok : forall t k, (exists t', ts_delete t k = Ok t') <-> lib_key k.
Proof.
  intros t k. split.
  - intros [t' H]. apply delete_spec in H as [[_ H]|(Hk & _)]; [discriminate|exact Hk].
  - intros Hk. exists (ts_delete_from_deque t k). apply delete_spec. right. split; [exact Hk|].
    exists (ts_delete_from_deque t k). split; [reflexivity|]. split; [apply delete_members|].
    destruct t; cbn; split; congruence.
Qed.
Print Assumptions C09_delete_ok.

(** The accepted grammar contains the documented (W3C) one when the system id
    has at most 13 characters ... *)
Theorem C09_w3c_key_accepted : forall k, w3c_key k ->
  (forall tenant system, k = tenant ++ 64 :: system -> (List.length system <= 13)%nat) -> lib_key k.
Proof.
  intros k [(c & r & -> & Hc & Hr & Hl)|(t & s & -> & Ht & Hl & c & r & -> & Hc & Hr & Hl2)] H.
  - split; [cbn [List.length]; lia|]. right; left. exists c, r.
    split; [reflexivity|]. split; [left; exact Hc|exact Hr].
  - specialize (H t (c :: r) eq_refl). cbn [List.length] in H. split.
    + rewrite app_length. cbn [List.length]. lia.
    + right; right. exists t, (c :: r). repeat split; [exact Ht|cbn [List.length]; lia|].
      right. exists c, r. repeat split; [left; lia|exact Hr].
Qed.
Print Assumptions C09_w3c_key_accepted.

Theorem C09_w3c_value_accepted : forall v, w3c_value v -> lib_value v.
Proof.
  intros v (H & Hl & _ & _). unfold lib_value, blen.
  assert (Forall (fun b => b < 128) v) as Ha by (eapply List.Forall_impl; [|exact H]; intros c Hc; cbv beta in *; lia).
  rewrite (utf8_all_ascii2 v Ha). rewrite List.Forall_forall in H.
  split; [unfold byte, str, char in *; lia|]. split; intros Hin; apply H in Hin; lia.
Qed.
Print Assumptions C09_w3c_value_accepted.

(** ... but the claim fails against the documented grammar: the empty key and
    a control character are accepted, and a valid 14-character system id is
    rejected. *)
Theorem C91_documented_grammar_refuted :
  (exists t k, ts_insert None k (of_string "v") = Ok t /\ ~ w3c_key k) /\
  (exists t v, ts_insert None (of_string "k") v = Ok t /\ ~ w3c_value v) /\
  (exists k, w3c_key k /\ ts_insert None k (of_string "v") = Err (ErrKey k)).
Proof.
  split; [|split].
  - exists (Some [([], of_string "v")]), []. split; [reflexivity|].
    intros [(c & r & H & _)|(t & s & H & _)]; [discriminate|destruct t; discriminate].
  - exists (Some [(of_string "k", [10])]), [10]. split; [reflexivity|].
    intros (H & _). inversion H; subst. lia.
  - exists (of_string "t@abcdefghijklmn"). split; [|vm_compute; reflexivity].
    right. exists (of_string "t"), (of_string "abcdefghijklmn"). split; [reflexivity|].
    split; [exists 116, []; repeat split; [left; lia|constructor]|]. split; [cbn; lia|].
    exists 97, (of_string "bcdefghijklmn"). split; [reflexivity|]. split; [lia|].
    split; [|cbn; lia]. apply rest_dec. reflexivity.
Qed.
Print Assumptions C91_documented_grammar_refuted.

Example C09_nonvacuous : exists t,
  ts_from_str (of_string "rojo=00f067aa0ba902b7,t1@congo==t61rcWkgMzE,") = Ok t /\ ts_reach t /\
  members t = [(of_string "rojo", of_string "00f067aa0ba902b7"); (of_string "t1@congo", of_string "t61rcWkgMzE")].
Proof.
  eexists. split; [vm_compute; reflexivity|]. split; [|reflexivity].
  eapply (TRstr (of_string "rojo=00f067aa0ba902b7,t1@congo==t61rcWkgMzE,")). vm_compute. reflexivity.
Qed.

(** * C10: update order *)

Theorem C10_insert_front : forall t k v t',
  List.NoDup (keys (members t)) -> ts_insert t k v = Ok t' ->
  members t' = (k, v) :: without k (members t) /\ List.NoDup (keys (members t')).
Proof.
  intros t k v t' Hd H. apply insert_spec in H as [[_ H]|[(_ & _ & H)|(_ & _ & H)]]; [discriminate|discriminate|].
  injection H as ->. cbn [members]. rewrite (remove_first_without k _ Hd). split; [reflexivity|].
  destruct (without_nodup k _ Hd) as [H1 H2]. cbn [keys map fst]. apply List.NoDup_cons; assumption.
Qed.
Print Assumptions C10_insert_front.

Theorem C10_delete_removes : forall t k t',
  List.NoDup (keys (members t)) -> ts_delete t k = Ok t' ->
  members t' = without k (members t) /\ List.NoDup (keys (members t')) /\ ts_get t' k = None.
Proof.
  intros t k t' Hd H. apply delete_spec in H as [[_ H]|(_ & t'' & H & Hm & _)]; [discriminate|].
  injection H as <-. rewrite (remove_first_without k _ Hd) in Hm. destruct (without_nodup k _ Hd) as [H1 H2].
  rewrite Hm. split; [reflexivity|]. split; [exact H1|]. rewrite ts_get_find, Hm. apply ts_find_none, H2.
Qed.
Print Assumptions C10_delete_removes.

(** Without any assumption on duplicates: the inserted pair comes first and is
    what [get] returns, other members keep their order and their values. *)
Theorem C10_insert_general : forall t k v t', ts_insert t k v = Ok t' ->
  hd_error (members t') = Some (k, v) /\ ts_get t' k = Some v /\
  without k (members t') = without k (members t) /\
  (forall k', k' <> k -> ts_get t' k' = ts_get t k').
Proof.
  intros t k v t' H. apply insert_spec in H as [[_ H]|[(_ & _ & H)|(_ & _ & H)]]; [discriminate|discriminate|].
  injection H as ->. split; [reflexivity|]. split; [cbn; rewrite str_eqb_refl; reflexivity|]. split.
  - cbn [members without List.filter fst]. rewrite str_eqb_refl. cbn [negb]. apply without_order.
  - intros k' Hne. rewrite !ts_get_find. cbn [members ts_find].
    destruct (str_eqb_spec k k'); [congruence|]. apply ts_find_remove_other, Hne.
Qed.
Print Assumptions C10_insert_general.

Theorem C10_delete_general : forall t k t', ts_delete t k = Ok t' ->
  without k (members t') = without k (members t) /\
  (forall k', k' <> k -> ts_get t' k' = ts_get t k') /\
  (~ In k (keys (members t)) -> t' = t).
Proof.
  intros t k t' H. pose proof H as H0.
  apply delete_spec in H as [[_ H]|(Hk & t'' & H & Hm & _)]; [discriminate|]. injection H as <-.
  rewrite Hm. split; [apply without_order|]. split.
  - intros k' Hne. rewrite !ts_get_find, Hm. apply ts_find_remove_other, Hne.
  - intros Hn. assert (remove_first k (members t) = members t) as E.
    { clear - Hn. induction (members t) as [|[x v] r IH]; cbn in *; [reflexivity|].
      destruct (str_eqb_spec x k); [tauto|]. f_equal. apply IH. tauto. }
    unfold ts_delete in H0. destruct (negb (ts_valid_key k)); [discriminate|]. injection H0 as <-.
    destruct t as [l|]; [|reflexivity]. cbn in *. f_equal. exact E.
Qed.
Print Assumptions C10_delete_general.

Theorem C10_get_first : forall t k v, ts_get t k = Some v <-> first_value k (members t) v.
Proof. intros t k v. rewrite ts_get_find. apply ts_find_spec. Qed.
Print Assumptions C10_get_first.

Theorem C10_get_none : forall t k, ts_get t k = None <-> ~ In k (keys (members t)).
Proof. intros t k. rewrite ts_get_find. apply ts_find_none. Qed.
Print Assumptions C10_get_none.

(** Keys are not deduplicated by the constructors, so [delete] can leave the key behind. *)
Theorem C92_delete_duplicate_refuted : exists t t' k,
  ts_reach t /\ ts_delete t k = Ok t' /\ ts_get t' k <> None.
Proof.
  exists (Some [(of_string "a", of_string "1"); (of_string "a", of_string "2")]),
         (Some [(of_string "a", of_string "2")]), (of_string "a").
  split; [|split; [reflexivity|discriminate]].
  apply (TRstr (of_string "a=1,a=2")). reflexivity.
Qed.
Print Assumptions C92_delete_duplicate_refuted.

Example C10_nonvacuous :
  let t := Some [(of_string "a", of_string "1"); (of_string "b", of_string "2"); (of_string "c", of_string "3")] in
  List.NoDup (keys (members t)) /\
  ts_insert t (of_string "b") (of_string "9") =
    Ok (Some [(of_string "b", of_string "9"); (of_string "a", of_string "1"); (of_string "c", of_string "3")]).
Proof.
  split; [|reflexivity]. cbn.
  repeat (apply List.NoDup_cons; [cbn; intuition discriminate|]). apply List.NoDup_nil.
Qed.

(** * C11: header round trip *)

Theorem C11_header_roundtrip : forall t, ts_reach t ->
  exists t', ts_from_str (ts_header t) = Ok t' /\ members t' = members t /\ (members t <> [] -> t' = t).
Proof.
  intros t H. apply reach_valid in H. exists (of_members (members t)). split; [apply header_roundtrip, H|].
  destruct t as [[|e l]|]; cbn; repeat split; congruence.
Qed.
Print Assumptions C11_header_roundtrip.

Theorem C11_header_text : forall t e d,
  ts_header_delimited t e d = join d (map (fun m => fst m ++ e ++ snd m) (members t)).
Proof. intros [l|] e d; reflexivity. Qed.
Print Assumptions C11_header_text.

Example C11_nonvacuous : exists t, ts_reach t /\ members t <> [] /\
  ts_header t = of_string "b= 2,a=1".
Proof.
  exists (Some [(of_string "b", of_string " 2"); (of_string "a", of_string "1")]).
  split; [|split; [discriminate|reflexivity]].
  apply (TRins (Some [(of_string "a", of_string "1")]) (of_string "b") (of_string " 2")); [|reflexivity].
  apply (TRkv [(of_string "a", of_string "1")]). reflexivity.
Qed.

(** * C12: identifiers *)

Theorem C12_trace_id_roundtrip : forall t, t < 2 ^ 128 ->
  trace_id_from_bytes (trace_id_to_bytes t) = t /\ trace_id_from_hex (trace_id_display t) = Some t /\
  List.length (trace_id_to_bytes t) = 16%nat /\ Forall (fun b => b < 256) (trace_id_to_bytes t) /\
  List.length (trace_id_display t) = 32%nat /\ Forall lower_hex_char (trace_id_display t).
Proof.
  intros t H. split; [apply be_roundtrip, H|]. split; [apply trace_id_hex, H|].
  split; [apply be_length|]. split; [apply be_byte_range|]. split; [apply hex_pad_length|apply hex_pad_chars].
Qed.
Print Assumptions C12_trace_id_roundtrip.

Theorem C12_span_id_roundtrip : forall s, s < 2 ^ 64 ->
  span_id_from_bytes (span_id_to_bytes s) = s /\ span_id_from_hex (span_id_display s) = Some s /\
  List.length (span_id_to_bytes s) = 8%nat /\ Forall (fun b => b < 256) (span_id_to_bytes s) /\
  List.length (span_id_display s) = 16%nat /\ Forall lower_hex_char (span_id_display s).
Proof.
  intros t H. split; [apply be_roundtrip, H|]. split; [apply span_id_hex, H|].
  split; [apply be_length|]. split; [apply be_byte_range|]. split; [apply hex_pad_length|apply hex_pad_chars].
Qed.
Print Assumptions C12_span_id_roundtrip.

Theorem C12_bytes_roundtrip : forall bs, Forall (fun b => b < 256) bs ->
  (List.length bs = 16%nat -> trace_id_to_bytes (trace_id_from_bytes bs) = bs /\ trace_id_from_bytes bs < 2 ^ 128) /\
  (List.length bs = 8%nat -> span_id_to_bytes (span_id_from_bytes bs) = bs /\ span_id_from_bytes bs < 2 ^ 64).
Proof.
  intros bs H. destruct (be_roundtrip2 bs H) as [H1 H2]. split; intros E; rewrite E in *; split; assumption.
Qed.
Print Assumptions C12_bytes_roundtrip.

(** The text denotes the id in hexadecimal, and equal text means equal id. *)
Theorem C12_display_value : forall t s, t < 2 ^ 128 -> s < 2 ^ 64 ->
  hex_value (trace_id_display t) = Some t /\ hex_value (span_id_display s) = Some s.
Proof.
  intros t s Ht Hs.
  assert (forall w v, v < 16 ^ N.of_nat w -> hex_value (hex_pad w v) = Some v) as H.
  { intros w v Hv. pose proof (hex_digits_pad (16 ^ N.of_nat w) w v Hv Hv) as Hd.
    rewrite hex_digits_spec in Hd by lia. destruct (hex_value (hex_pad w v)) as [u|]; [|discriminate].
    destruct (u <? 16 ^ N.of_nat w); [exact Hd|discriminate]. }
  split; apply H; assumption.
Qed.
Print Assumptions C12_display_value.

Theorem C12_display_injective : forall a b, a < 2 ^ 128 -> b < 2 ^ 128 ->
  (trace_id_display a = trace_id_display b -> a = b) /\
  (a < 2 ^ 64 -> b < 2 ^ 64 -> span_id_display a = span_id_display b -> a = b).
Proof.
  intros a b Ha Hb. split.
  - intros E. pose proof (trace_id_hex a Ha) as H1. pose proof (trace_id_hex b Hb) as H2. congruence.
  - intros Ha' Hb' E. pose proof (span_id_hex a Ha') as H1. pose proof (span_id_hex b Hb') as H2. congruence.
Qed.
Print Assumptions C12_display_injective.

(** What [from_hex] accepts, exactly. *)
Theorem C12_from_hex_exact : forall s v,
  (trace_id_from_hex s = Some v <-> hex_field s v /\ v < 2 ^ 128) /\
  (span_id_from_hex s = Some v <-> hex_field s v /\ v < 2 ^ 64).
Proof. intros s v. split; [apply tid_spec|apply sid_spec]. Qed.
Print Assumptions C12_from_hex_exact.

(** Flags: setting the sampled bit touches no other bit. *)
Theorem C12_flags : forall f s, f < 256 ->
  flags_is_sampled f = N.testbit f 0 /\
  flags_is_sampled (flags_with_sampled f s) = s /\
  (forall i, 0 < i -> N.testbit (flags_with_sampled f s) i = N.testbit f i) /\
  flags_with_sampled f s < 256.
Proof. intros f s H. split; [apply is_sampled_spec|apply with_sampled_spec, H]. Qed.
Print Assumptions C12_flags.

Example C12_nonvacuous :
  trace_id_display 0x4bf92f3577b34da6a3ce929d0e0e4736 = of_string "4bf92f3577b34da6a3ce929d0e0e4736"
  /\ span_id_display 255 = of_string "00000000000000ff" /\ 255 < 2 ^ 64
  /\ trace_id_to_bytes 258 = repeat 0 14 ++ [1; 2].
Proof. repeat split; vm_compute; reflexivity. Qed.

(** * C13: round trip *)

Theorem C13_roundtrip : forall V (cx cx' : context span_context V) (c : carrier),
  let sc := cx_span_context cx in
  sc_typed sc = true -> sc_is_valid sc = true -> ts_reach (sc_state sc) ->
  exists sc', w3c_extract cx' (w3c_inject cx c) = cx_with_span sc' cx' /\
    sc_trace sc' = sc_trace sc /\ sc_span sc' = sc_span sc /\
    sc_is_sampled sc' = sc_is_sampled sc /\ sc_remote sc' = true /\
    members (sc_state sc') = members (sc_state sc) /\
    (members (sc_state sc) <> [] -> sc_state sc' = sc_state sc).
Proof.
  intros V cx cx' c sc Ht Hv Hm. unfold w3c_extract.
  rewrite (roundtrip cx c Ht Hv (reach_valid _ Hm)). fold sc.
  eexists. split; [reflexivity|]. cbn. repeat (split; [reflexivity|]). split.
  - unfold sc_is_sampled. cbn [sc_flags]. rewrite !is_sampled_spec, !N.bit0_odd.
    pose proof (N.bit0_mod (sc_flags sc)) as Hb. rewrite N.bit0_odd in Hb. rewrite <- Hb.
    destruct (N.odd (sc_flags sc)); reflexivity.
  - split; [reflexivity|]. split; destruct (sc_state sc) as [[|]|]; cbn; congruence.
Qed.
Print Assumptions C13_roundtrip.

Example C13_nonvacuous :
  let sc := mk_sc 0x4bf92f3577b34da6a3ce929d0e0e4736 0x00f067aa0ba902b7 3 false
              (Some [(of_string "foo", of_string "bar")]) in
  sc_typed sc = true /\ sc_is_valid sc = true /\ ts_reach (sc_state sc) /\
  cr_get TRACEPARENT (w3c_inject (V:=unit) (cx_with_span sc cx_new) ∅) =
    Some (of_string "00-4bf92f3577b34da6a3ce929d0e0e4736-00f067aa0ba902b7-01").
Proof.
  split; [reflexivity|]. split; [reflexivity|]. split; [|vm_compute; reflexivity].
  apply (TRstr (of_string "foo=bar")). reflexivity.
Qed.

(** * C14: extraction is safe on every input *)

Theorem C14_extract_safe : forall V (cx : context span_context V) (c : carrier),
  w3c_extract cx c = cx \/
  exists sc, w3c_extract cx c = cx_with_span sc cx /\ sc_is_valid sc = true /\ sc_remote sc = true /\
    (sc_flags sc = 0 \/ sc_flags sc = 1) /\ sc_typed sc = true /\ valid_members (members (sc_state sc)).
Proof. exact @extract_keeps. Qed.
Print Assumptions C14_extract_safe.

(** The context's other contents are never touched. *)
Theorem C14_extract_keeps_rest : forall V (cx : context span_context V) (c : carrier),
  cx_entries (w3c_extract cx c) = cx_entries cx /\ cx_suppress (w3c_extract cx c) = cx_suppress cx.
Proof. intros V cx c. destruct (extract_keeps cx c) as [->|(sc & -> & _)]; split; reflexivity. Qed.
Print Assumptions C14_extract_keeps_rest.

Example C14_nonvacuous :
  w3c_extract_span_context (cr_set TRACEPARENT (of_string "00-00000000000000000000000000000000-00f067aa0ba902b7-01") ∅) = None
  /\ w3c_extract_span_context (cr_set TRACEPARENT (of_string "00-4bf92f3577b34da6a3ce929d0e0e4736-00f067aa0ba902b7-01") ∅) <> None.
Proof. split; vm_compute; [reflexivity|discriminate]. Qed.

(** * C15: injection is well-formed *)

Theorem C15_inject_invalid_writes_nothing : forall V (cx : context span_context V) (c : carrier),
  sc_is_valid (cx_span_context cx) = false -> w3c_inject cx c = c.
Proof. intros V cx c. apply (inject_shape cx c). Qed.
Print Assumptions C15_inject_invalid_writes_nothing.

Theorem C15_inject_wellformed : forall V (cx : context span_context V) (c : carrier),
  let sc := cx_span_context cx in
  sc_is_valid sc = true ->
  (exists h, cr_get TRACEPARENT (w3c_inject cx c) = Some h /\ strict_traceparent h /\
     exists a, h = a ++ of_string (if N.testbit (sc_flags sc) 0 then "01" else "00")) /\
  cr_get TRACESTATE (w3c_inject cx c) = Some (ts_header (sc_state sc)) /\
  (forall k, k <> TRACEPARENT -> k <> TRACESTATE -> w3c_inject cx c !! k = c !! k).
Proof. intros V cx c. apply (inject_shape cx c). Qed.
Print Assumptions C15_inject_wellformed.

Example C15_nonvacuous : strict_traceparent (of_string "00-4bf92f3577b34da6a3ce929d0e0e4736-00f067aa0ba902b7-01")
  /\ sc_is_valid (cx_span_context (V:=unit) cx_new) = false.
Proof.
  split; [|reflexivity].
  exists (of_string "4bf92f3577b34da6a3ce929d0e0e4736"), (of_string "00f067aa0ba902b7"), (of_string "01").
  split; [reflexivity|].
  repeat split; apply lhex_dec; reflexivity.
Qed.

(** * C16: the accepted grammar *)

(** Exactly what is accepted and what is read from it. *)
Theorem C16_accepted_exactly : forall c sc,
  w3c_extract_span_context c = Some sc <->
  exists version tid sid opts,
    accepted_traceparent (match cr_get TRACEPARENT c with Some h => h | None => [] end) version tid sid opts /\
    tid <> 0 /\ sid <> 0 /\
    sc = mk_sc tid sid (opts mod 2) true (state_of_header (cr_get TRACESTATE c)).
Proof. exact extract_spec. Qed.
Print Assumptions C16_accepted_exactly.

(** Every strict version-00 header with non-zero ids and flags 00, 01 or 02 is accepted. *)
Theorem C16_strict_accepted : forall c p1 p2 p3,
  cr_get TRACEPARENT c = Some (of_string "00-" ++ p1 ++ [45] ++ p2 ++ [45] ++ p3) ->
  Forall lower_hex_char p1 -> List.length p1 = 32%nat -> hex_value p1 <> Some 0 ->
  Forall lower_hex_char p2 -> List.length p2 = 16%nat -> hex_value p2 <> Some 0 ->
  In p3 [of_string "00"; of_string "01"; of_string "02"] ->
  exists sc, w3c_extract_span_context c = Some sc /\
    hex_value p1 = Some (sc_trace sc) /\ hex_value p2 = Some (sc_span sc) /\
    (sc_is_sampled sc = true <-> p3 = of_string "01").
Proof.
  intros c p1 p2 p3 Hc H1 L1 N1 H2 L2 N2 H3.
  assert (forall s, Forall lower_hex_char s -> exists v, hex_value s = Some v /\ v < 16 ^ N.of_nat (List.length s)) as Hv.
  { intros s. induction s as [|x s IH] using rev_ind; intros H.
    - exists 0. split; [reflexivity|cbn; lia].
    - apply List.Forall_app in H as [H Hx]. inversion Hx as [|? ? Hx' _]; subst. destruct (IH H) as (v & E & Hb).
      rewrite hex_value_snoc, E, app_length. cbn [List.length]. rewrite Nat.add_1_r, Nat2N.inj_succ, N.pow_succ_r'.
      assert (exists d, hex_digit_value x = Some d /\ d < 16) as (d & -> & Hd).
      { unfold hex_digit_value. unfold lower_hex_char in Hx'.
        destruct ((48 <=? x) && (x <=? 57)) eqn:E1; [exists (x - 48); split; [reflexivity|lia]|].
        destruct ((97 <=? x) && (x <=? 102)) eqn:E2; [exists (x - 97 + 10); split; [reflexivity|lia]|]. lia. }
      exists (d + 16 * v). split; [reflexivity|lia]. }
  destruct (Hv p1 H1) as (tid & E1 & B1). destruct (Hv p2 H2) as (sid & E2 & B2). 
  apply (eq_ind _ (fun n => tid < 16 ^ N.of_nat n) B1 _) in L1 as B1'. apply (eq_ind _ (fun n => sid < 16 ^ N.of_nat n) B2 _) in L2 as B2'. clear B1 B2. rename B1' into B1. rename B2' into B2.
  assert (exists opts, hex_value p3 = Some opts /\ opts <= 2 /\ (opts mod 2 = 1 <-> p3 = of_string "01") /\ Forall lower_hex_char p3 /\ p3 <> []) as (o & E3 & B3 & Ho & F3 & Ne3).
  { assert (forall a b, 48 <= a <= 57 -> 48 <= b <= 57 -> Forall lower_hex_char [a; b]) as HF
      by (intros a b Ha Hb; constructor; [left; lia|constructor; [left; lia|constructor]]).
    destruct H3 as [<-|[<-|[<-|[]]]]; eexists; (split; [vm_compute; reflexivity|]); (split; [lia|]);
      (split; [split; [intros X; vm_compute in X; (discriminate || reflexivity)|intros X; vm_compute in X; (discriminate X || reflexivity)]|]);
      (split; [apply HF; split; discriminate|discriminate]). }
  assert (forall s v, s <> [] -> hex_value s = Some v -> hex_field s v) as Hf.
  { intros s v Hne E. exists [], s. auto. }
  eexists. split; [|split; [|split]].
  - apply extract_spec. exists 0, tid, sid, o. unfold header_or_empty. rewrite Hc.
    split; [|split; [congruence|split; [congruence|reflexivity]]].
    exists (of_string "00"), p1, p2, p3, [].
    split; [rewrite app_nil_r; apply trim_no_ws; rewrite !forallb_app, !andb_true_iff; repeat split;
            first [reflexivity|apply lhex_no_ws; assumption]|].
    split; [intros X; cbn in X; intuition discriminate|].
    repeat (split; [apply lhex_no_dash; assumption|]). split; [auto|].
    split; [apply Hf; [discriminate|reflexivity]|]. split; [lia|].
    split; [apply Hf; [destruct p1; discriminate|exact E1]|]. split; [exact B1|]. split; [apply lhex_no_upper, H1|].
    split; [apply Hf; [destruct p2; discriminate|exact E2]|]. split; [exact B2|]. split; [apply lhex_no_upper, H2|].
    split; [apply Hf; [exact Ne3|exact E3]|]. lia.
  - exact E1.
  - exact E2.
  - unfold sc_is_sampled. cbn [sc_flags]. rewrite is_sampled_spec, N.bit0_odd.
    rewrite <- Ho. pose proof (N.bit0_mod (o mod 2)) as Hb. rewrite N.bit0_odd in Hb.
    rewrite N.mod_mod in Hb by discriminate. rewrite <- Hb. destruct (N.odd (o mod 2)); cbn; intuition discriminate.
Qed.
Print Assumptions C16_strict_accepted.

(** The strictness claim is false: short ids, signs and a trailing dash pass. *)
Theorem C93_strict_grammar_refuted : exists c h,
  cr_get TRACEPARENT c = Some h /\ ~ strict_traceparent h /\ w3c_extract_span_context c <> None.
Proof.
  exists (cr_set TRACEPARENT (of_string "0-+1-2-1-") ∅), (of_string "0-+1-2-1-").
  split; [reflexivity|]. split; [|vm_compute; discriminate].
  intros (p1 & p2 & p3 & H & _). discriminate.
Qed.
Print Assumptions C93_strict_grammar_refuted.

(** A well-formed version-00 header whose flags are 03 (sampled, random) is
    dropped, although 01 and 02 are accepted. *)
Theorem C93_flags_03_refuted : exists c h,
  cr_get TRACEPARENT c = Some h /\ strict_traceparent h /\ w3c_extract_span_context c = None.
Proof.
  exists (cr_set TRACEPARENT (of_string "00-4bf92f3577b34da6a3ce929d0e0e4736-00f067aa0ba902b7-03") ∅).
  eexists. split; [reflexivity|]. split; [|vm_compute; reflexivity].
  exists (of_string "4bf92f3577b34da6a3ce929d0e0e4736"), (of_string "00f067aa0ba902b7"), (of_string "03").
  split; [reflexivity|].
  repeat split; apply lhex_dec; reflexivity.
Qed.
Print Assumptions C93_flags_03_refuted.
