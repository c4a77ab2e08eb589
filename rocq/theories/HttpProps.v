(** Property C83: context travels through HTTP headers. *)
From Coq Require Import String List NArith Bool Lia.
From Coq Require Import ZifyBool ZifyNat ZifyN.
From stdpp Require Import base list gmap.
From Verif Require Import Str StrProofs ContextModel Carrier BaggageModel BaggageSpec BaggageProofs
  TraceModel TraceSpec TraceProofs W3CModel W3CSpec W3CProofs PropModel PropSpec PropProofs PropProps TraceProps HttpModel.
Import ListNotations.
Local Open Scope N_scope.

(** * Vocabulary *)

(** Text of printable ASCII characters and tabs. *)
Definition readable (v : str) : Prop := Forall (fun c => 32 <= c <= 126 \/ c = 9) v.
(** Keys as [HeaderMap] keeps them: valid names in lower case. *)
Definition names_ok (h : headers) : Prop := forall k e, h !! k = Some e -> name_ok k = true /\ to_lower k = k.
(** Values that cannot break out of their header line. *)
Definition no_control (bs : list N) : Prop := Forall (fun b => 32 <= b /\ b <> 127 \/ b = 9) bs.
Definition safe (h : headers) : Prop := forall k v vs, h !! k = Some (v, vs) -> no_control v /\ Forall no_control vs.
(** A header map that was received or filled with [set] calls. *)
Definition writes_ok (ws : list (str * str)) : Prop := Forall (fun w => name_ok (fst w) = true /\ readable (snd w)) ws.

(** The characters of an HTTP token (RFC 9110, section 5.6.2). *)
Definition tchar (c : N) : Prop :=
  In c (of_string "!#$%&'*+-.^_`|~") \/ 48 <= c <= 57 \/ 65 <= c <= 90 \/ 97 <= c <= 122.

(** * Lemmas *)

Lemma readable_utf8 v : readable v -> utf8 v = v.
Proof.
  intros H. apply utf8_ascii. apply forallb_forall. intros c Hc. unfold readable in H. rewrite List.Forall_forall in H.
  specialize (H c Hc). lia.
Qed.
Lemma readable_bytes v : readable v -> forallb readable_byte v = true /\ forallb value_byte v = true.
Proof.
  intros H. unfold readable in H. rewrite List.Forall_forall in H.
  split; apply forallb_forall; intros c Hc; specialize (H c Hc); unfold readable_byte, value_byte; lia.
Qed.
Lemma lower_idem_char c : to_lower_char (to_lower_char c) = to_lower_char c.
Proof. unfold to_lower_char, is_upper, between. destruct ((65 <=? c) && (c <=? 90)) eqn:E; [|rewrite E; reflexivity].
  replace ((65 <=? c + 32) && (c + 32 <=? 90)) with false by lia. reflexivity. Qed.
Lemma lower_idem s : to_lower (to_lower s) = to_lower s.
Proof. unfold to_lower. rewrite map_map. apply map_ext. intros c. apply lower_idem_char. Qed.
Lemma name_char_lower c : name_char (to_lower_char c) = name_char c.
Proof.
  unfold to_lower_char. destruct (is_upper c) eqn:E; [|reflexivity].
  unfold name_char. rewrite E. unfold is_upper, between in E. unfold is_lower, between.
  replace ((97 <=? c + 32) && (c + 32 <=? 122)) with true by lia. rewrite !orb_true_r. reflexivity.
Qed.
Lemma name_ok_lower k : name_ok (to_lower k) = name_ok k.
Proof.
  unfold name_ok, to_lower. rewrite map_length. f_equal.
  induction k as [|c k IH]; [reflexivity|]. cbn [map forallb]. rewrite name_char_lower, IH. reflexivity.
Qed.

Lemma names_ok_set k v h : names_ok h -> names_ok (hm_set k v h).
Proof.
  intros H. unfold hm_set. destruct (name_ok k) eqn:E; [|exact H]. destruct (forallb _ _); [|exact H].
  intros i e Hi. apply lookup_insert_Some in Hi as [[<- _]|[_ Hi]]; [|exact (H i e Hi)].
  rewrite name_ok_lower, lower_idem. split; [exact E|reflexivity].
Qed.

Lemma as_carrier_set k v h : name_ok k = true -> readable v -> as_carrier (hm_set k v h) = cr_set k v (as_carrier h).
Proof.
  intros Hk Hv. destruct (readable_bytes v Hv) as [B1 B2]. unfold hm_set. rewrite Hk, (readable_utf8 v Hv), B2.
  unfold cr_set, as_carrier. apply map_eq. intros i. rewrite lookup_omap.
  destruct (decide (to_lower k = i)) as [<-|Hne].
  - rewrite !lookup_insert. cbn. rewrite B1. reflexivity.
  - rewrite !lookup_insert_ne by exact Hne. rewrite lookup_omap. reflexivity.
Qed.

(** The calls recorded as writes are the calls the propagators make. *)
Lemma w3c_writes_inject {V} (cx : context span_context V) c : w3c_inject cx c = cr_sets (w3c_writes cx) c.
Proof. unfold w3c_inject, w3c_writes. destruct (sc_is_valid (cx_span_context cx)); reflexivity. Qed.
Lemma b3_writes_inject {V} e (cx : context span_context V) c : b3_inject e cx c = cr_sets (b3_writes e cx) c.
Proof.
  unfold b3_inject, b3_writes. cbv zeta. generalize (cx_span_context cx) as sc. intros sc.
  destruct (sc_is_valid sc), (enc_support e SingleHeader), (enc_support e MultipleHeader || enc_support e UnSpecified),
    (has_flag (sc_flags sc) FLAG_DEFERRED), (has_flag (sc_flags sc) FLAG_DEBUG); cbn [negb];
    unfold cr_sets; cbn [app fold_left fst snd]; rewrite ?app_nil_r, <- ?app_assoc; reflexivity.
Qed.
Lemma jaeger_writes_inject {V} j (cx : context span_context V) c : jg_inject j cx c = cr_sets (jaeger_writes j cx) c.
Proof. unfold jg_inject, jaeger_writes. cbv zeta. destruct (sc_is_valid (cx_span_context cx)); reflexivity. Qed.
Lemma baggage_writes_inject ord cx c : pr_inject (bg_propagator ord) cx c = cr_sets (baggage_writes ord cx) c.
Proof. cbn [pr_inject bg_propagator]. unfold baggage_writes. destruct (bg_inject _ _); reflexivity. Qed.

Lemma readable_app a b : readable a -> readable b -> readable (a ++ b).
Proof. intros H1 H2. apply Forall_app. split; assumption. Qed.
Lemma readable_pad w v : readable (hex_pad w v).
Proof. eapply List.Forall_impl; [|apply hex_pad_chars]. intros c. cbv beta. unfold lower_hex_char. lia. Qed.
Lemma readable_join d l : readable d -> Forall readable l -> readable (join d l).
Proof.
  intros Hd H. induction H as [|x l Hx Hl IH]; [constructor|]. cbn [join]. destruct l; [exact Hx|].
  apply readable_app; [exact Hx|]. apply readable_app; [exact Hd|exact IH].
Qed.
Lemma readable_one c : 32 <= c <= 126 -> readable [c].
Proof. intros H. constructor; [left; exact H|constructor]. Qed.
Lemma readable_lit s : forallb readable_byte s = true -> readable s.
Proof. intros H. rewrite forallb_forall in H. apply List.Forall_forall. intros c Hc. specialize (H c Hc).
  unfold readable_byte in H. lia. Qed.

Lemma simple_part_readable s : simple_part s -> readable s.
Proof.
  intros (c & r & -> & Hc & Hr). constructor; [unfold lower_or_digit in Hc; lia|].
  eapply Forall_impl; [exact Hr|]. intros x Hx. unfold key_rest_char in Hx.
  change (of_string "_-*/") with [95; 45; 42; 47] in Hx. cbn [In] in Hx. lia.
Qed.
Lemma lib_key_readable k : lib_key k -> readable k.
Proof.
  intros (_ & [->|[H|(t & s & -> & Ht & _ & Hs)]]).
  - constructor.
  - apply simple_part_readable, H.
  - apply readable_app; [apply simple_part_readable, Ht|]. constructor; [lia|].
    destruct Hs as [->|Hs]; [constructor|apply simple_part_readable, Hs].
Qed.

Lemma pct_encode_readable s : wf_str s = true -> readable (pct_encode s).
Proof.
  intros Hw. unfold pct_encode. apply List.Forall_forall. intros c Hc. apply in_flat_map in Hc as (b & Hb & Hc).
  pose proof (utf8_bytes s Hw) as Hu. rewrite List.Forall_forall in Hu. specialize (Hu b Hb).
  destruct (should_encode b) eqn:E.
  - unfold pct_byte, hex_char_upper in Hc.
    assert (b / 16 < 16) by (apply N.div_lt_upper_bound; lia).
    assert (b mod 16 < 16) by (apply N.mod_lt; lia).
    destruct (N.ltb_spec (b / 16) 10), (N.ltb_spec (b mod 16) 10); destruct Hc as [<-|[<-|[<-|[]]]]; lia.
  - destruct Hc as [<-|[]]. unfold should_encode, in_fragment in E. lia.
Qed.

Lemma trim_incl s c : In c (trim s) -> In c s.
Proof.
  intros Hin. unfold trim, trim_end, trim_start in Hin. apply in_rev in Hin.
  destruct (drop_while_suffix is_ws (rev (drop_while is_ws s))) as (a & Ha & _).
  destruct (drop_while_suffix is_ws s) as (a2 & Ha2 & _).
  rewrite Ha2. apply in_or_app. right. apply in_rev. rewrite Ha. apply in_or_app. right. exact Hin.
Qed.

(** * Theorems *)

(** C83.  A header is found again under its name in any case, others are not
    touched. *)
Theorem C83_get_after_set : forall k v h k', name_ok k = true -> readable v ->
  hm_get k' (hm_set k v h) = if str_eqb (to_lower k') (to_lower k) then Some v else hm_get k' h.
Proof.
  intros k v h k' Hk Hv. destruct (readable_bytes v Hv) as [B1 B2]. unfold hm_set, hm_get.
  rewrite Hk, (readable_utf8 v Hv), B2. destruct (str_eqb_spec (to_lower k') (to_lower k)) as [E|E].
  - assert (name_ok k' = true) as -> by (rewrite <- name_ok_lower, E, name_ok_lower; exact Hk).
    rewrite E, lookup_insert, B1. reflexivity.
  - rewrite lookup_insert_ne by congruence. reflexivity.
Qed.
Print Assumptions C83_get_after_set.

(** C83.  The names taken are the HTTP tokens. *)
Theorem C83_names : forall k, name_ok k = true <-> k <> [] /\ N.of_nat (List.length k) < 65536 /\ Forall tchar k.
Proof.
  intros k. assert (forall c, name_char c = true <-> tchar c) as G.
  { intros c. unfold name_char, tchar, is_digit, is_lower, is_upper, between.
    change (of_string "!#$%&'*+-.^_`|~") with [33; 35; 36; 37; 38; 39; 42; 43; 45; 46; 94; 95; 96; 124; 126].
    cbn [existsb In]. lia. }
  unfold name_ok. rewrite !andb_true_iff, forallb_forall, List.Forall_forall. split.
  - intros [[H1 H2] H3]. split; [intros ->; discriminate|]. split; [lia|]. intros c Hc. apply G, H3, Hc.
  - intros (H1 & H2 & H3). split; [split; [|lia]|intros c Hc; apply G, H3, Hc]. destruct k; [contradiction|reflexivity].
Qed.
Print Assumptions C83_names.

(** C83.  Every name set is listed by [keys], in lower case. *)
Theorem C83_keys : forall k v h x, name_ok k = true -> readable v ->
  In x (hm_keys (hm_set k v h)) <-> x = to_lower k \/ In x (hm_keys h).
Proof.
  intros k v h x Hk Hv. destruct (readable_bytes v Hv) as [B1 B2].
  assert (forall h x, In x (hm_keys h) <-> exists e, h !! x = Some e) as G.
  { clear. intros h x. unfold hm_keys. rewrite in_map_iff. split.
    - intros ([y e] & <- & Hin). exists e. apply elem_of_map_to_list, elem_of_list_In, Hin.
    - intros (e & He). exists (x, e). split; [reflexivity|]. apply elem_of_list_In, elem_of_map_to_list, He. }
  rewrite !G. unfold hm_set. rewrite Hk, (readable_utf8 v Hv), B2. split.
  - intros (e & He). apply lookup_insert_Some in He as [[<- _]|[_ He]]; [left; reflexivity|right; exists e; exact He].
  - intros [->|(e & He)]; [eexists; apply lookup_insert|].
    destruct (decide (to_lower k = x)) as [<-|Hne]; [eexists; apply lookup_insert|].
    exists e. rewrite lookup_insert_ne by exact Hne. exact He.
Qed.
Print Assumptions C83_keys.

(** C83.  Whatever is set, no header value ever holds a line break or another
    control byte, and a name that is no token changes nothing. *)
Theorem C83_no_header_injection : forall ws h, safe h -> safe (hm_sets ws h).
Proof.
  intros ws. induction ws as [|[k v] ws IH]; intros h Hs; [exact Hs|]. unfold hm_sets. cbn [fold_left fst snd].
  apply IH. unfold hm_set. destruct (name_ok k); [|exact Hs]. destruct (forallb value_byte (utf8 v)) eqn:E; [|exact Hs].
  intros i x xs Hi. apply lookup_insert_Some in Hi as [[_ Hi]|[_ Hi]]; [|exact (Hs i x xs Hi)].
  injection Hi as <- <-. split; [|constructor]. rewrite forallb_forall in E. apply List.Forall_forall. intros b Hb.
  specialize (E b Hb). unfold value_byte in E. lia.
Qed.
Print Assumptions C83_no_header_injection.
Theorem C83_refused : forall k v h,
  (k = [] \/ Exists (fun c => name_char c = false) k) \/ (exists b, In b (utf8 v) /\ (b < 32 /\ b <> 9 \/ b = 127)) ->
  hm_set k v h = h.
Proof.
  intros k v h [Hk|(b & Hb & Hc)].
  - unfold hm_set. assert (name_ok k = false) as ->; [|reflexivity]. unfold name_ok. destruct Hk as [->|Hk]; [reflexivity|].
    apply Exists_exists in Hk as (c & Hc & E). assert (forallb name_char k = false) as ->; [|apply andb_false_r].
    apply not_true_iff_false. rewrite forallb_forall. intros G. apply elem_of_list_In in Hc. rewrite (G c Hc) in E. discriminate.
  - unfold hm_set. destruct (name_ok k); [|reflexivity].
    assert (forallb value_byte (utf8 v) = false) as ->; [|reflexivity].
    apply not_true_iff_false. rewrite forallb_forall. intros G. specialize (G b Hb). unfold value_byte in G. lia.
Qed.
Print Assumptions C83_refused.

(** C83.  Reading headers is reading a map carrier with the same entries ... *)
Theorem C83_reads_like_a_map : forall h k, names_ok h -> hm_get k h = cr_get k (as_carrier h).
Proof.
  intros h k Hn. unfold hm_get, cr_get, as_carrier. rewrite lookup_omap.
  destruct (h !! to_lower k) as [[v vs]|] eqn:E.
  - destruct (Hn _ _ E) as [Hk _]. rewrite name_ok_lower in Hk. rewrite Hk. reflexivity.
  - destruct (name_ok k); reflexivity.
Qed.
Print Assumptions C83_reads_like_a_map.

(** ... and writing readable values under valid names is writing to it. *)
Theorem C83_writes_like_a_map : forall ws h, writes_ok ws ->
  as_carrier (hm_sets ws h) = cr_sets ws (as_carrier h) /\ (names_ok h -> names_ok (hm_sets ws h)).
Proof.
  intros ws. induction ws as [|[k v] ws IH]; intros h H; [split; [reflexivity|auto]|].
  inversion H as [|? ? [Hk Hv] Hws]; subst. cbn [fst snd] in Hk, Hv.
  unfold hm_sets, cr_sets. cbn [fold_left fst snd]. destruct (IH (hm_set k v h) Hws) as [I1 I2]. split.
  - rewrite <- (as_carrier_set k v h Hk Hv). exact I1.
  - intros Hn. apply I2, names_ok_set, Hn.
Qed.
Print Assumptions C83_writes_like_a_map.

(** C83.  W3C trace context over HTTP, whatever the request held before:
    the identity and the sampled flag arrive, and the trace state when its
    values are printable ASCII. *)
Theorem C83_w3c_over_http : forall V (cx cx' : context span_context V) (h : headers),
  let sc := cx_span_context cx in
  sc_typed sc = true -> sc_is_valid sc = true -> ts_reach (sc_state sc) ->
  Forall (fun m => readable (snd m)) (members (sc_state sc)) ->
  exists sc', w3c_extract cx' (as_carrier (hm_sets (w3c_writes cx) h)) = cx_with_span sc' cx' /\
    sc_trace sc' = sc_trace sc /\ sc_span sc' = sc_span sc /\
    sc_is_sampled sc' = sc_is_sampled sc /\ sc_remote sc' = true /\
    members (sc_state sc') = members (sc_state sc).
Proof.
  intros V cx cx' h sc Ht Hv Hr Hm.
  assert (writes_ok (w3c_writes cx)) as Hok.
  { unfold w3c_writes. fold sc. rewrite Hv. constructor; [|constructor; [|constructor]]; cbn [fst snd].
    - split; [reflexivity|]. unfold w3c_header, trace_id_display, span_id_display, DASH.
      repeat first [apply readable_pad|apply readable_one; lia|apply readable_app].
    - split; [reflexivity|]. unfold ts_header, ts_header_delimited. fold (members (sc_state sc)).
      pose proof (reach_valid _ Hr) as Hvm. unfold members in Hm, Hvm. destruct (sc_state sc) as [l|]; [|constructor].
      apply readable_join; [apply readable_one; lia|]. unfold valid_members in Hvm. clear -Hvm Hm.
      induction Hvm as [|[k v] l [Hk _] _ IH]; [constructor|]. inversion Hm as [|? ? Hx Hl]; subst.
      cbn [map]. constructor; [|apply IH, Hl]. cbn [fst snd] in *.
      apply readable_app; [apply lib_key_readable, Hk|]. apply readable_app; [apply readable_one; lia|exact Hx]. }
  rewrite (proj1 (C83_writes_like_a_map _ h Hok)), <- w3c_writes_inject.
  destruct (C13_roundtrip V cx cx' (as_carrier h) Ht Hv Hr) as (sc' & H1 & H2 & H3 & H4 & H5 & H6 & _).
  exists sc'. auto 10.
Qed.
Print Assumptions C83_w3c_over_http.

(** C83.  B3 and Jaeger never write anything HTTP refuses: over HTTP they do
    what they do over a map. *)
Theorem C83_b3_over_http : forall V (e : b3_encoding) (cx cx' : context span_context V) (h : headers),
  sc_typed (cx_span_context cx) = true ->
  b3_extract e cx' (as_carrier (hm_sets (b3_writes e cx) h)) = b3_extract e cx' (b3_inject e cx (as_carrier h)).
Proof.
  intros V e cx cx' h Ht.
  assert (writes_ok (b3_writes e cx)) as Hok; [|rewrite (proj1 (C83_writes_like_a_map _ h Hok)), <- b3_writes_inject; reflexivity].
  unfold b3_writes, trace_id_display, span_id_display, DASH. cbv zeta. generalize (cx_span_context cx) as sc. intros sc.
  assert (readable (of_string "d") /\ readable (of_string "1") /\ readable (of_string "0")) as (L1 & L2 & L3).
  { repeat split; apply readable_lit; reflexivity. }
  assert (name_ok B3_SINGLE = true /\ name_ok B3_TRACE = true /\ name_ok B3_SPAN = true /\ name_ok B3_DEBUG = true /\
          name_ok B3_SAMPLED = true) as (N1 & N2 & N3 & N4 & N5) by (repeat split; reflexivity).
  destruct (sc_is_valid sc), (enc_support e SingleHeader), (enc_support e MultipleHeader || enc_support e UnSpecified),
    (has_flag (sc_flags sc) FLAG_DEFERRED), (has_flag (sc_flags sc) FLAG_DEBUG), (sc_is_sampled sc);
    repeat match goal with
    | |- writes_ok ((if _ then _ else _) ++ _) => cbv iota
    | |- writes_ok _ => unfold writes_ok
    | |- Forall _ (_ ++ _) => apply Forall_app; split
    | |- Forall _ (_ :: _) => apply List.Forall_cons
    | |- Forall _ [] => apply List.Forall_nil
    | |- _ /\ _ => split
    end; cbn [fst snd]; try assumption;
    repeat first [exact L1|exact L2|exact L3|apply readable_pad|apply readable_one; lia|apply readable_app|apply List.Forall_nil].
Qed.
Print Assumptions C83_b3_over_http.

Theorem C83_jaeger_over_http : forall V (j : jaeger) (cx : context span_context V) (h : headers),
  sc_typed (cx_span_context cx) = true -> sc_is_valid (cx_span_context cx) = true -> name_ok (jg_header j) = true ->
  let h' := hm_sets (jaeger_writes j cx) h in
  (forall k, In k (hm_keys h') -> starts_with (jg_prefix j) k = false) ->
  jg_extract_sc j (hm_keys h') (as_carrier h') =
    Some (mk_sc (sc_trace (cx_span_context cx)) (sc_span (cx_span_context cx))
            (jg_returned (sc_flags (cx_span_context cx))) true None).
Proof.
  intros V j cx h Ht Hv Hn h' Hp.
  assert (writes_ok (jaeger_writes j cx)) as Hok.
  { unfold jaeger_writes, trace_id_display, span_id_display, COLON. rewrite Hv. cbv zeta. constructor; [|constructor].
    cbn [fst snd]. split; [exact Hn|].
    repeat first [apply readable_pad|apply readable_one; lia|apply readable_lit; reflexivity|apply readable_app]. }
  assert (as_carrier h' = jg_inject j cx (as_carrier h)) as ->.
  { unfold h'. rewrite (proj1 (C83_writes_like_a_map _ h Hok)), <- jaeger_writes_inject. reflexivity. }
  apply C19_roundtrip_plain; assumption.
Qed.
Print Assumptions C83_jaeger_over_http.

(** C83.  Baggage over HTTP: keys and values of any characters arrive, as far as
    C08 goes, when the metadata is printable ASCII. *)
Theorem C83_baggage_over_http : forall ops ord (cx cx' : context span_context baggage) (h : headers),
  cx_baggage cx = bg_run ops ->
  Forall (fun o => op_wf o = true) ops ->
  representable (bg_map (bg_run ops)) -> bg_map (bg_run ops) <> ∅ ->
  (forall k v m, bg_map (bg_run ops) !! k = Some (v, m) -> readable m) ->
  ord (bg_run ops) ≡ₚ map_to_list (bg_map (bg_run ops)) ->
  bg_map (cx_baggage (pr_extract (bg_propagator ord) cx' (as_carrier (hm_sets (baggage_writes ord cx) h)))) =
  bg_map (bg_run ops).
Proof.
  intros ops ord cx cx' h Hcx Hw Hrep Hne Hread Hord.
  pose proof (BaggageProofs.roundtrip ops (ord (bg_run ops)) Hw Hrep Hord) as RT.
  unfold baggage_writes. rewrite Hcx. destruct (bg_inject (bg_run ops) (ord (bg_run ops))) as [hd|] eqn:E; [|contradiction].
  assert (readable hd) as Hhd.
  { unfold bg_inject in E. destruct (bg_is_empty _); [discriminate|]. injection E as <-.
    apply readable_join; [apply readable_one; unfold COMMA; lia|].
    apply List.Forall_forall. intros t Ht. apply in_map_iff in Ht as ([k [v m]] & <- & Hin).
    assert (bg_map (bg_run ops) !! k = Some (v, m)) as Hk.
    { apply elem_of_map_to_list. rewrite <- Hord. apply elem_of_list_In, Hin. }
    assert (wf_entry (k, (v, m))) as (W1 & W2 & W3).
    { refine (proj1 (run_wf ops bg_new Hw _ k (v, m) Hk)). intros x e Hx. cbn in Hx. rewrite lookup_empty in Hx. discriminate. }
    cbn [fst snd] in *. unfold bg_item_header.
    assert (readable (trim m)) as Hm.
    { pose proof (Hread _ _ _ Hk) as Hm. unfold readable in *. rewrite List.Forall_forall in *.
      intros c Hc. apply Hm, trim_incl, Hc. }
    repeat apply readable_app.
    - apply pct_encode_readable, wf_trim, W1.
    - apply readable_one. unfold EQUALS. lia.
    - apply pct_encode_readable, wf_trim, W2.
    - destruct (trim m); [constructor|apply readable_one; unfold SEMI; lia].
    - exact Hm. }
  assert (writes_ok [(BAGGAGE_HEADER, hd)]) as Hok.
  { constructor; [|constructor]. cbn [fst snd]. split; [reflexivity|exact Hhd]. }
  rewrite (proj1 (C83_writes_like_a_map _ h Hok)). cbn [pr_extract bg_propagator]. unfold cr_sets. cbn [fold_left fst snd].
  rewrite cr_get_set_same. cbn [bg_extract_with_context]. rewrite with_baggage_get. exact RT.
Qed.
Print Assumptions C83_baggage_over_http.

(** C130 refuted for trace states the API accepts: a value that is not ASCII is
    put in the request, and the receiver finds no trace state at all. *)
Theorem C130_trace_state_lost_refuted : exists (t : tstate) (cx : context span_context unit),
  ts_insert (Some [(of_string "other", of_string "1")]) (of_string "a") [233] = Ok t /\
  sc_state (cx_span_context cx) = t /\ List.length (members t) = 2%nat /\
  exists sc', w3c_extract cx (as_carrier (hm_sets (w3c_writes cx) ∅)) = cx_with_span sc' cx /\ members (sc_state sc') = [].
Proof.
  exists (Some [(of_string "a", [233]); (of_string "other", of_string "1")]).
  exists (mk_context (Some (mk_sc 1 2 1 false (Some [(of_string "a", [233]); (of_string "other", of_string "1")]))) None false).
  split; [vm_compute; reflexivity|]. split; [reflexivity|]. split; [reflexivity|].
  exists (mk_sc 1 2 1 true None). split; [vm_compute; reflexivity|reflexivity].
Qed.
Print Assumptions C130_trace_state_lost_refuted.

(** C130 refuted for baggage metadata that is not ASCII: all baggage of the
    request is lost, not only that entry. *)
Theorem C130_baggage_lost_refuted : exists ops (ord : baggage -> list (str * bg_entry)) (cx : context span_context baggage),
  cx_baggage cx = bg_run ops /\ ord (bg_run ops) ≡ₚ map_to_list (bg_map (bg_run ops)) /\
  size (bg_map (bg_run ops)) = 2%nat /\
  bg_map (cx_baggage (pr_extract (bg_propagator ord) (mk_context None None false)
            (as_carrier (hm_sets (baggage_writes ord cx) ∅)))) = ∅.
Proof.
  exists [BInsert (of_string "a") (of_string "1") [233]; BInsert (of_string "b") (of_string "2") []].
  exists (fun b => map_to_list (bg_map b)).
  exists (cx_with_baggage (mk_context None None false)
    (bg_run [BInsert (of_string "a") (of_string "1") [233]; BInsert (of_string "b") (of_string "2") []])).
  split; [apply with_baggage_get|]. split; [reflexivity|]. split; [vm_compute; reflexivity|]. vm_compute. reflexivity.
Qed.
Print Assumptions C130_baggage_lost_refuted.

(** The hypotheses are met by a request that already carries headers. *)
Example C83_nonvacuous :
  let h := hm_sets [(of_string "Host", of_string "example.org"); (of_string "TraceParent", of_string "stale")] ∅ in
  let cx := mk_context (Some (mk_sc 1 2 1 false (Some [(of_string "a", of_string "x y")]))) (None : option (gmap type_id (any unit))) false in
  hm_get (of_string "HOST") h = Some (of_string "example.org") /\
  ts_reach (Some [(of_string "a", of_string "x y")]) /\ readable (of_string "x y") /\
  hm_get (of_string "traceparent") (hm_sets (w3c_writes cx) h) =
    Some (of_string "00-00000000000000000000000000000001-0000000000000002-01") /\
  hm_get (of_string "evil") (hm_set (of_string "evil") (of_string "a" ++ [13; 10]) h) = None.
Proof.
  cbv zeta. split; [vm_compute; reflexivity|]. split.
  - apply (TRkv [(of_string "a", of_string "x y")]). vm_compute. reflexivity.
  - split; [apply readable_lit; reflexivity|]. split; vm_compute; reflexivity.
Qed.
