(** C86: OTLP messages as JSON. *)
From Coq Require Import String List NArith ZArith Bool Permutation Lia.
From Verif Require Import Str StrProofs F64 F64Proofs PropSpec PropProofs TraceModel TraceProofs SpanModel LogModel AttrModel KvModel KvProps OtlpModel OtlpProps JsonModel JsonProofs.
Import ListNotations.
Local Open Scope Z_scope.

(** ** What is written can be read *)
(** Any value whose floats are finite and whose AnyValues are not empty, any message made
    of such values: reading the JSON gives the message back. *)
Theorem C86_values_survive : forall o, ok_any o -> de_any (en_any o) = Some o.
Proof. exact any_rt. Qed.
Print Assumptions C86_values_survive.

Lemma names : apart "spans" /\ apart "scopeSpans" /\ apart "logRecords" /\ apart "scopeLogs" /\ apart "metrics" /\ apart "scopeMetrics".
Proof. repeat split; reflexivity. Qed.
Theorem C86_spans_survive : forall r, Forall (ok_group ok_span) r -> de_spans (en_spans r) = Some r.
Proof. intros r H. destruct names as (A & B & _). apply (request_rt en_span de_span ok_span span_rt); [split; [discriminate|exact A]|split; [discriminate|exact B]|exact H]. Qed.
Print Assumptions C86_spans_survive.
Theorem C86_logs_survive : forall r, Forall (ok_group ok_log) r -> de_logs (en_logs r) = Some r.
Proof. intros r H. destruct names as (_ & _ & A & B & _). apply (request_rt en_log de_log ok_log log_rt); [split; [discriminate|exact A]|split; [discriminate|exact B]|exact H]. Qed.
Print Assumptions C86_logs_survive.
Theorem C86_metrics_survive : forall r, Forall (ok_group ok_metric) r -> de_metrics (en_metrics r) = Some r.
Proof. intros r H. destruct names as (_ & _ & _ & _ & A & B). apply (request_rt en_metric de_metric ok_metric metric_rt); [split; [discriminate|exact A]|split; [discriminate|exact B]|exact H]. Qed.
Print Assumptions C86_metrics_survive.

(** ** What the SDK exports *)
(** An attribute value of the API that is not NaN or infinite. *)
Definition value_ok (v : value) : Prop :=
  match v with
  | VI64 z => i64r z
  | VF64 f => finite f
  | VArray (AI64 l) => Forall i64r l
  | VArray (AF64 l) => Forall finite l
  | _ => True
  end.
Definition attrs_ok (l : list attr) : Prop := Forall (fun kv => value_ok (snd kv)) l.
Lemma value_ok_jv v : value_ok v -> ok_jv (jv_of (any_of_value v)).
Proof.
  destruct v as [b|z|f|s|[l|l|l|l]]; cbn [any_of_value]; intros H; try exact H; try exact I; cbn [jv_of]; apply ok_av; rewrite map_map.
  - clear H. induction l; cbn [map]; constructor; [exact I|assumption].
  - induction H; cbn [map]; constructor; assumption.
  - induction H; cbn [map]; constructor; assumption.
  - clear H. induction l; cbn [map]; constructor; [exact I|assumption].
Qed.
Lemma attrs_ok_kvs l : attrs_ok l -> ok_kvs (kvs_of (attrs_msg l)).
Proof.
  unfold attrs_ok, ok_kvs, kvs_of, attrs_msg. rewrite map_map. induction 1 as [|kv l H Hl IH]; constructor; [|exact IH].
  cbn. apply value_ok_jv. exact H.
Qed.
Definition small (n : N) : Prop := (n < 2 ^ 32)%N.
Definition sdk_span_ok (s : sdata) : Prop :=
  let d := d_data s in
  (sc_flags (d_ctx s) < 256)%N /\ attrs_ok (sc_attrs (d_scope s)) /\ attrs_ok (sd_attrs d) /\ small (sd_attrs_dropped d) /\ small (sd_events_dropped d) /\ small (sd_links_dropped d) /\
  Forall (fun e => attrs_ok (ev_attrs e) /\ small (ev_dropped e)) (sd_events d) /\
  Forall (fun k => (sc_flags (ln_sc k) < 256)%N /\ attrs_ok (ln_attrs k) /\ small (ln_dropped k)) (sd_links d).
Lemma nanos_range t : u64r (to_nanos t).
Proof. unfold to_nanos, u64r. destruct (Z.ltb_spec t 0); [lia|]. apply Z.mod_pos_bound. lia. Qed.
Lemma small_u32 n : small n -> u32r (Z.of_N n).
Proof. unfold small, u32r. lia. Qed.
Lemma be_bytes_ok w v : bytes (be_bytes w v).
Proof. apply be_byte_range. Qed.
Lemma span_msg_ok s : sdk_span_ok s -> ok_span (jspan_of (span_msg s)).
Proof.
  intros (H1 & H2 & H3 & H4 & H5 & H6 & H7 & H8). unfold ok_span, jspan_of, span_msg.
  cbn [ja_trace ja_span ja_parent ja_flags ja_kind ja_start ja_end ja_attrs ja_attrs_dropped ja_events ja_events_dropped ja_links ja_links_dropped ja_status
       p_trace p_span p_state p_parent p_flags p_name p_kind p_start p_end p_attrs p_attrs_dropped p_events p_events_dropped p_links p_links_dropped p_code p_message].
  repeat match goal with |- _ /\ _ => split end; try (apply be_bytes_ok); try (apply nanos_range); try (apply small_u32; assumption).
  - destruct (N.eqb (sd_parent (d_data s)) 0); [constructor|apply be_bytes_ok].
  - unfold u32r. lia.
  - unfold i32r, kind_msg. destruct (sd_kind (d_data s)) as [|[[p|p|]|[p|p|]|]]; lia.
  - apply attrs_ok_kvs. exact H3.
  - rewrite map_map. induction H7 as [|e l [He1 He2] Hl IH]; constructor; [|exact IH]. unfold ok_event. cbn.
    split; [apply nanos_range|]. split; [apply attrs_ok_kvs; exact He1|apply small_u32; exact He2].
  - rewrite map_map. induction H8 as [|e l (He1 & He2 & He3) Hl IH]; constructor; [|exact IH]. unfold ok_link, jlink_of, link_msg.
    cbn [jl_trace jl_span jl_attrs jl_dropped jl_flags pl_trace pl_span pl_state pl_attrs pl_dropped pl_flags].
    split; [apply be_bytes_ok|]. split; [apply be_bytes_ok|]. split; [apply attrs_ok_kvs; exact He2|]. split; [apply small_u32; exact He3|]. unfold u32r. lia.
  - intros st [= <-]. unfold ok_status, i32r. cbn. destruct (sd_status (d_data s)); cbn; lia.
Qed.
(** The request for any batch of spans is read back as sent: with C60 and C62, every span
    of the batch with its attributes, events, links, times and ids. *)
Theorem C86_exported_spans_survive : forall same order spans r, permutes order -> Forall sdk_span_ok spans -> attrs_ok (re_attrs r) ->
  let m := [jgroup_of jspan_of (spans_msg same order spans r)] in de_spans (en_spans m) = Some m.
Proof.
  intros same order spans r Ho Hs Hr. apply C86_spans_survive. constructor; [|constructor]. unfold ok_group, jgroup_of, spans_msg. cbn.
  split; [intros a [= <-]; split; [apply attrs_ok_kvs; exact Hr|unfold u32r; cbn; lia]|].
  rewrite map_map. apply Forall_map. apply Forall_forall. intros g Hg.
  assert (In g (group same d_scope spans)) as Hg' by (eapply Permutation_in; [apply Ho|exact Hg]).
  pose proof (proj1 (Forall_forall _ _) (group_all_ok same d_scope spans) g Hg') as (x & rest & E1 & E2 & E3 & _).
  assert (forall y, In y (snd g) -> In y spans) as Hsub.
  { clear - E3. intros y. induction E3; cbn; intros Hy; [contradiction|right; auto|destruct Hy as [-> |Hy]; auto]. }
  rewrite Forall_forall in Hs. split; cbn.
  - intros a [= <-]. split; cbn; [|unfold u32r; lia]. apply attrs_ok_kvs. rewrite <- E2.
    assert (In x spans) as Hx by (apply Hsub; rewrite E1; left; reflexivity). apply (Hs x Hx).
  - rewrite map_map. apply Forall_map. apply Forall_forall. intros y Hy. apply span_msg_ok. apply Hs. apply Hsub. exact Hy.
Qed.
Print Assumptions C86_exported_spans_survive.

(** Log bodies and attributes. *)
Fixpoint lany_ok (v : lany) : Prop :=
  match v with
  | LInt z => i64r z
  | LDouble f => finite f
  | LBytes b => bytes b
  | LList l => (fix all l := match l with [] => True | v :: l => lany_ok v /\ all l end) l
  | LMap l => (fix all (l : list (str * lany)) := match l with [] => True | kv :: l => lany_ok (snd kv) /\ all l end) l
  | _ => True
  end.
Lemma lany_ok_jv : forall v, lany_ok v -> ok_jv (jv_of (any_of_log v)).
Proof.
  fix IH 1. intros [z|f|s|b|b|l|l] H; cbn [any_of_log jv_of]; try exact H.
  - apply ok_av. rewrite map_map. cbn [lany_ok] in H. revert H. induction l as [|v l IHl]; intros H; cbn [map]; constructor.
    + cbn. apply IH. apply H.
    + apply IHl. apply H.
  - apply ok_kvl. rewrite map_map. cbn [lany_ok] in H. revert H. induction l as [|[k v] l IHl]; intros H; cbn [map]; constructor.
    + cbn. apply IH. apply H.
    + apply IHl. apply H.
Qed.
Definition sdk_log_ok (r : lrec) : Prop :=
  Forall (fun kv => lany_ok (snd kv)) (attributes r) /\ for_option lany_ok (lr_body r) /\ for_option (fun n => (n < 2 ^ 31)%N) (lr_sev r) /\
  for_option (fun t => for_option (fun f => (f < 256)%N) (tc_flags t)) (lr_trace r).
Lemma log_msg_ok r m : sdk_log_ok r -> log_msg r = Some m -> ok_log (jlog_of m).
Proof.
  intros (H1 & H2 & H3 & H4) E. unfold log_msg in E. destruct (lr_observed r) as [o|]; [|discriminate]. injection E as <-.
  unfold ok_log, jlog_of.
  cbn [jb_time jb_observed jb_sev jb_body jb_attrs jb_dropped jb_flags jb_trace jb_span q_time q_observed q_sev q_body q_attrs q_flags q_trace q_span].
  repeat match goal with |- _ /\ _ => split end.
  - unfold omap. destruct (lr_time r); [apply nanos_range|unfold u64r; lia].
  - apply nanos_range.
  - unfold omap, i32r. destruct (lr_sev r) as [n|]; [specialize (H3 n eq_refl); cbv beta in H3; lia|lia].
  - intros a Ha. destruct (lr_body r) as [v|]; [|discriminate]. cbn in Ha. injection Ha as <-. cbn. apply lany_ok_jv. apply H2. reflexivity.
  - unfold ok_kvs, kvs_of. rewrite map_map. induction H1 as [|kv l H Hl IHl]; cbn [map]; constructor; [cbn; apply lany_ok_jv; exact H|exact IHl].
  - unfold u32r. lia.
  - unfold omap, u32r. destruct (lr_trace r) as [t|]; [|cbn; lia]. specialize (H4 t eq_refl). cbv beta in H4. destruct (tc_flags t) as [f|]; [|cbn; lia].
    specialize (H4 f eq_refl). cbv beta in H4. cbn. lia.
  - unfold omap. destruct (lr_trace r); [apply be_bytes_ok|constructor].
  - unfold omap. destruct (lr_trace r); [apply be_bytes_ok|constructor].
Qed.
Lemma all_some_in {A B} (f : A -> option B) l m y : all_some (map f l) = Some m -> In y m -> exists x, In x l /\ f x = Some y.
Proof.
  revert m. induction l as [|x l IH]; cbn [map all_some]; intros m E Hy; [injection E as <-; contradiction|].
  destruct (f x) as [b|] eqn:Ef; [|discriminate]. destruct (all_some (map f l)) as [m'|] eqn:El; [|discriminate]. injection E as <-.
  destruct Hy as [<-|Hy]; [exists x; split; [left; reflexivity|exact Ef]|]. destruct (IH m' eq_refl Hy) as (z & Hz & Ez). exists z. split; [right; exact Hz|exact Ez].
Qed.
(** The same for any batch of log records (scope attributes are not exported, C61). *)
Theorem C86_exported_logs_survive : forall order logs r p, permutes order -> Forall (fun x => sdk_log_ok (fst x)) logs -> attrs_ok (re_attrs r) ->
  logs_msg order logs r = Some p -> let m := [jgroup_of jlog_of p] in de_logs (en_logs m) = Some m.
Proof.
  intros order logs r p Ho Hl Hr E. apply C86_logs_survive. constructor; [|constructor]. unfold logs_msg in E.
  destruct (all_some (map (log_group_msg r) (order (group str_eqb log_key logs)))) as [gs|] eqn:Eg; [|discriminate]. cbn in E. injection E as <-.
  unfold ok_group, jgroup_of. cbn. split; [intros a [= <-]; split; [apply attrs_ok_kvs; exact Hr|unfold u32r; cbn; lia]|].
  apply Forall_map. apply Forall_forall. intros g Hg. destruct (all_some_in _ _ _ _ Eg Hg) as (h & Hh & Eh).
  assert (In h (group str_eqb log_key logs)) as Hh' by (eapply Permutation_in; [apply Ho|exact Hh]).
  pose proof (proj1 (Forall_forall _ _) (group_all_ok str_eqb log_key logs) h Hh') as (x & rest & _ & _ & E3 & _).
  assert (forall y, In y (snd h) -> In y logs) as Hsub.
  { clear - E3. intros y. induction E3; cbn; intros Hy; [contradiction|right; auto|destruct Hy as [-> |Hy]; auto]. }
  unfold log_group_msg in Eh. destruct (snd h) as [|first hs] eqn:Es; [discriminate|].
  destruct (all_some (map (fun x => log_msg (fst x)) (first :: hs))) as [ms|] eqn:Em; [|discriminate]. cbn in Eh. injection Eh as <-.
  split; cbn.
  - intros a [= <-]. split; cbn; [constructor|unfold u32r; lia].
  - apply Forall_map. apply Forall_forall. intros m Hm. destruct (all_some_in _ _ _ _ Em Hm) as (y & Hy & Ey).
    eapply log_msg_ok; [|exact Ey]. rewrite Forall_forall in Hl. apply Hl. apply Hsub. exact Hy.
Qed.
Print Assumptions C86_exported_logs_survive.

(** ** The form of the JSON *)
Definition has (j : json) (name : string) (v : json) : Prop := exists l, j = JObj l /\ In (of_string name, v) l.
Definition HEX : list N := of_string "0123456789abcdef".
(** Lower-case hexadecimal, two digits for each byte. *)
Definition hex_text (b : list N) (s : str) : Prop :=
  s = flat_map (fun x => [nth (N.to_nat (x / 16)) HEX 0%N; nth (N.to_nat (x mod 16)) HEX 0%N]) b.
(** Decimal without leading zeros. *)
Definition nat_text (n : N) (s : str) : Prop := dec_value s = Some n /\ s <> [] /\ (hd 0%N s = 48%N -> s = [48%N]).
Definition int_text (z : Z) (s : str) : Prop :=
  (0 <= z /\ nat_text (Z.to_N z) s) \/ (z < 0 /\ exists t, s = 45%N :: t /\ nat_text (Z.to_N (- z)) t).
(** RFC 4648, section 4. *)
Definition B64 : list N := of_string "ABCDEFGHIJKLMNOPQRSTUVWXYZabcdefghijklmnopqrstuvwxyz0123456789+/".
Definition digit64 (i : N) : N := nth (N.to_nat i) B64 0%N.
Inductive rfc4648 : list N -> str -> Prop :=
| rfc_nil : rfc4648 [] []
| rfc_one x i j : (i < 64 -> j < 64 -> x * 16 = i * 64 + j -> rfc4648 [x] [digit64 i; digit64 j; 61; 61])%N
| rfc_two x y i j k : (i < 64 -> j < 64 -> k < 64 -> x * 1024 + y * 4 = i * 4096 + j * 64 + k -> rfc4648 [x; y] [digit64 i; digit64 j; digit64 k; 61])%N
| rfc_more x y z b s i j k l : (i < 64 -> j < 64 -> k < 64 -> l < 64 -> x * 65536 + y * 256 + z = i * 262144 + j * 4096 + k * 64 + l ->
    rfc4648 b s -> rfc4648 (x :: y :: z :: b) (digit64 i :: digit64 j :: digit64 k :: digit64 l :: s))%N.

Lemma by_table (P : N -> bool) k : forallb (fun i => P (N.of_nat i)) (seq 0 k) = true -> forall n, (n < N.of_nat k)%N -> P n = true.
Proof.
  intros H n Hn. rewrite forallb_forall in H. specialize (H (N.to_nat n)). rewrite N2Nat.id in H. apply H. apply in_seq. lia.
Qed.
Lemma hex_char_table d : (d < 16)%N -> hex_char d = nth (N.to_nat d) HEX 0%N.
Proof. intros H. apply N.eqb_eq. revert d H. apply (by_table (fun d => (hex_char d =? nth (N.to_nat d) HEX 0)%N) 16). reflexivity. Qed.
Lemma b64_char_table d : (d < 64)%N -> b64_char d = digit64 d.
Proof. intros H. apply N.eqb_eq. revert d H. apply (by_table (fun d => (b64_char d =? digit64 d)%N) 64). vm_compute. reflexivity. Qed.
Lemma hex_encode_text b : bytes b -> hex_text b (hex_encode b).
Proof.
  unfold hex_text. induction 1 as [|x b Hx Hb IH]; [reflexivity|]. cbn [hex_encode flat_map]. unfold hex_encode in IH. rewrite IH.
  rewrite !hex_char_table; [reflexivity|apply N.mod_lt; lia|apply N.div_lt_upper_bound; lia].
Qed.
Lemma base64_text b : bytes b -> rfc4648 b (base64_encode b).
Proof.
  induction b as [|x|x y|x y z b IH] using list_ind3; intros Hb; [constructor| | |].
  - inversion Hb; subst. destruct (b64_group x 0 0) as (Ha & Hbb & _ & _ & E1 & E2 & _); try lia. rewrite N.add_0_r in *.
    cbn [base64_encode]. rewrite !b64_char_table by assumption. apply rfc_one; try assumption.
    pose proof (N.div_mod x 4 ltac:(lia)). lia.
  - inversion Hb as [|? ? Hx Hy']; subst. inversion Hy' as [|? ? Hy _]; subst.
    destruct (b64_group x y 0) as (Ha & Hbb & Hc & _ & E1 & E2 & _); try lia. rewrite N.add_0_r in *.
    cbn [base64_encode]. rewrite !b64_char_table by assumption. apply rfc_two; try assumption.
    pose proof (N.div_mod x 4 ltac:(lia)). pose proof (N.div_mod y 16 ltac:(lia)). lia.
  - inversion Hb as [|? ? Hx Hy']; subst. inversion Hy' as [|? ? Hy Hz']; subst. inversion Hz' as [|? ? Hz Hb']; subst.
    destruct (b64_group x y z) as (Ha & Hbb & Hc & Hd & _); try assumption.
    cbn [base64_encode]. rewrite !b64_char_table by assumption. apply rfc_more; try assumption; [|apply IH; assumption].
    pose proof (N.div_mod x 4 ltac:(lia)). pose proof (N.div_mod y 16 ltac:(lia)). pose proof (N.div_mod z 64 ltac:(lia)). lia.
Qed.
Lemma dec_of_head fuel n : (n < 10 ^ N.of_nat fuel)%N -> (0 < fuel)%nat -> hd 0%N (dec_of fuel n) = 48%N -> dec_of fuel n = [48%N].
Proof.
  revert n. induction fuel as [|f IH]; intros n Hn Hf; [lia|]. cbn [dec_of]. destruct (N.ltb_spec n 10); cbn [hd].
  - intros Hh0. f_equal. exact Hh0.
  - destruct f as [|f]; [cbn in Hn; lia|]. intros Hh. exfalso.
    assert (n / 10 < 10 ^ N.of_nat (S f))%N as Hd.
    { apply N.div_lt_upper_bound; [lia|]. rewrite Nat2N.inj_succ, N.pow_succ_r' in Hn. exact Hn. }
    destruct (dec_of_shape (S f) (n / 10) ltac:(lia)) as [Hne _].
    assert (hd 0%N (dec_of (S f) (n / 10)) = 48%N) as Hh'.
    { destruct (dec_of (S f) (n / 10)%N) as [|c r] eqn:E; [contradiction|]. cbn [app hd] in Hh. exact Hh. }
    specialize (IH _ Hd ltac:(lia) Hh').
    pose proof (dec_of_digits (S f) (n / 10) (10 ^ N.of_nat (S f)) Hd Hd) as Ev. rewrite IH in Ev. cbn [dec_digits] in Ev.
    change (is_digit 48%N) with true in Ev. cbv iota in Ev. replace (0 * 10 + (48 - 48))%N with 0%N in Ev by reflexivity.
    destruct (0 <? 10 ^ N.of_nat (S f))%N; [|discriminate]. injection Ev as Ev.
    assert (1 <= n / 10)%N by (apply N.div_le_lower_bound; lia). lia.
Qed.
Lemma dec_N_text n : (n < 2 ^ 64)%N -> nat_text n (dec_N n).
Proof.
  intros Hn. assert (n < 10 ^ N.of_nat 20)%N as Hn' by (eapply N.lt_trans; [exact Hn|reflexivity]).
  destruct (dec_of_shape 20 n ltac:(lia)) as [Hne Hd]. split; [|split; [exact Hne|apply dec_of_head; [exact Hn'|lia]]].
  pose proof (dec_of_digits 20 n (2 ^ 64) Hn' Hn) as H. rewrite dec_digits_spec in H by lia. unfold dec_N.
  destruct (dec_value (dec_of 20 n)) as [u|]; [|discriminate]. destruct (N.ltb_spec u (2 ^ 64)); [exact H|discriminate].
Qed.
Lemma dec_Z_text z : i64r z \/ u64r z -> int_text z (dec_Z z).
Proof.
  intros H. unfold int_text, dec_Z, i64r, u64r in *. destruct (Z.ltb_spec z 0).
  - right. split; [assumption|]. eexists. split; [reflexivity|]. apply dec_N_text. lia.
  - left. split; [assumption|]. apply dec_N_text. lia.
Qed.

(** Ids are lower-case hexadecimal, times and integer attributes are decimal strings (no
    precision is lost to a reader that takes numbers as doubles), bytes are base64. *)
Theorem C86_form : forall s z b, ok_span s -> i64r z -> bytes b ->
  (exists t p a e f, hex_text (ja_trace s) t /\ hex_text (ja_span s) p /\ hex_text (ja_parent s) a /\ int_text (ja_start s) e /\ int_text (ja_end s) f /\
     has (en_span s) "traceId" (JStr t) /\ has (en_span s) "spanId" (JStr p) /\ has (en_span s) "parentSpanId" (JStr a) /\
     has (en_span s) "startTimeUnixNano" (JStr e) /\ has (en_span s) "endTimeUnixNano" (JStr f) /\
     has (en_span s) "name" (JStr (ja_name s)) /\ has (en_span s) "kind" (JInt (ja_kind s))) /\
  (exists t, int_text z t /\ en_any (Some (IV z)) = JObj [(of_string "intValue", JStr t)]) /\
  (exists t, rfc4648 b t /\ en_any (Some (XV b)) = JObj [(of_string "bytesValue", JStr t)]).
Proof.
  intros s z b Hs Hz Hb. destruct Hs as (H1 & H2 & H3 & H4 & H5 & H6 & H7 & _). split; [|split].
  - exists (hex_encode (ja_trace s)), (hex_encode (ja_span s)), (hex_encode (ja_parent s)), (dec_Z (ja_start s)), (dec_Z (ja_end s)).
    repeat match goal with |- _ /\ _ => split end; try (apply hex_encode_text; assumption); try (apply dec_Z_text; right; assumption);
      (eexists; split; [reflexivity|]; cbn; tauto).
  - exists (dec_Z z). split; [apply dec_Z_text; left; exact Hz|reflexivity].
  - exists (base64_encode b). split; [apply base64_text; exact Hb|reflexivity].
Qed.
Print Assumptions C86_form.

(** Integers may also come as numbers, ids in upper case. *)
Theorem C86_other_forms : forall z b, i64r z -> bytes b ->
  de_any (JObj [(of_string "intValue", JInt z)]) = Some (Some (IV z)) /\
  de_hex (JStr (flat_map (fun x => [hex_char_upper (x / 16); hex_char_upper (x mod 16)]%N) b)) = Some b.
Proof.
  intros z b Hz Hb. split.
  - unfold de_any. cbn [depth fold_right snd Nat.max]. cbn [de_value]. unfold visit, de_known. compute_fields. unfold de_string_or_int, de_i64.
    rewrite int_rt by exact Hz. reflexivity.
  - cbn [de_hex]. induction Hb as [|x b Hx Hb IH]; [reflexivity|]. cbn [flat_map app hex_decode].
    pose proof (N.mod_lt x 16 ltac:(lia)). assert (x / 16 < 16)%N by (apply N.div_lt_upper_bound; lia).
    rewrite !hex_val_char_upper by assumption. rewrite IH. f_equal. f_equal. pose proof (N.div_mod x 16 ltac:(lia)). lia.
Qed.
Print Assumptions C86_other_forms.

(** What a reader finds of the messages the exporter builds (C62 says what is in them). *)
Theorem C86_log_message : forall r, bytes (q_trace r) -> bytes (q_span r) -> u64r (q_time r) -> u64r (q_observed r) ->
  let j := en_log (jlog_of r) in
  exists t p a b, hex_text (q_trace r) t /\ hex_text (q_span r) p /\ int_text (q_time r) a /\ int_text (q_observed r) b /\
    has j "traceId" (JStr t) /\ has j "spanId" (JStr p) /\ has j "timeUnixNano" (JStr a) /\ has j "observedTimeUnixNano" (JStr b) /\
    has j "severityNumber" (JInt (q_sev r)) /\ has j "severityText" (JStr (q_sevtext r)) /\ has j "eventName" (JStr (q_event r)) /\
    has j "flags" (JInt (Z.of_N (q_flags r))) /\
    has j "body" (match q_body r with Some v => en_any (Some (jv_of v)) | None => JNull end) /\
    has j "attributes" (JArr (map (fun kv => JObj [(of_string "key", JStr (fst kv)); (of_string "value", en_any (Some (jv_of (snd kv))))]) (q_attrs r))).
Proof.
  intros r H1 H2 H3 H4 j. exists (hex_encode (q_trace r)), (hex_encode (q_span r)), (dec_Z (q_time r)), (dec_Z (q_observed r)).
  repeat match goal with |- _ /\ _ => split end; try (apply hex_encode_text; assumption); try (apply dec_Z_text; right; assumption);
    try (eexists; split; [reflexivity|]; cbn; tauto).
  - eexists. split; [reflexivity|]. cbn [In]. do 4 right. left. unfold field. cbn [jlog_of jb_body]. destruct (q_body r); reflexivity.
  - eexists. split; [reflexivity|]. cbn [In]. do 5 right. left. unfold field. cbn [jlog_of jb_attrs]. unfold en_kvs, en_list, kvs_of. rewrite map_map. reflexivity.
Qed.
Print Assumptions C86_log_message.
Theorem C86_span_message : forall s, bytes (p_trace s) -> bytes (p_span s) -> bytes (p_parent s) -> u64r (p_start s) -> u64r (p_end s) ->
  let j := en_span (jspan_of s) in
  exists t p a b e st evs lks, hex_text (p_trace s) t /\ hex_text (p_span s) p /\ hex_text (p_parent s) a /\ int_text (p_start s) b /\ int_text (p_end s) e /\
    has j "traceId" (JStr t) /\ has j "spanId" (JStr p) /\ has j "parentSpanId" (JStr a) /\ has j "traceState" (JStr (p_state s)) /\
    has j "startTimeUnixNano" (JStr b) /\ has j "endTimeUnixNano" (JStr e) /\ has j "name" (JStr (p_name s)) /\ has j "kind" (JInt (p_kind s)) /\
    has j "flags" (JInt (Z.of_N (p_flags s))) /\
    has j "droppedAttributesCount" (JInt (Z.of_N (p_attrs_dropped s))) /\ has j "droppedEventsCount" (JInt (Z.of_N (p_events_dropped s))) /\
    has j "droppedLinksCount" (JInt (Z.of_N (p_links_dropped s))) /\
    has j "attributes" (JArr (map (fun kv => JObj [(of_string "key", JStr (fst kv)); (of_string "value", en_any (Some (jv_of (snd kv))))]) (p_attrs s))) /\
    has j "status" st /\ has st "code" (JInt (p_code s)) /\ has st "message" (JStr (p_message s)) /\
    has j "events" (JArr evs) /\ Forall2 (fun x e => has x "name" (JStr (pe_name e)) /\
      (u64r (pe_time e) -> exists t, int_text (pe_time e) t /\ has x "timeUnixNano" (JStr t)) /\ has x "droppedAttributesCount" (JInt (Z.of_N (pe_dropped e)))) evs (p_events s) /\
    has j "links" (JArr lks) /\ Forall2 (fun x k => (bytes (pl_trace k) -> exists t, hex_text (pl_trace k) t /\ has x "traceId" (JStr t)) /\
      (bytes (pl_span k) -> exists t, hex_text (pl_span k) t /\ has x "spanId" (JStr t)) /\ has x "traceState" (JStr (pl_state k))) lks (p_links s).
Proof.
  intros s H1 H2 H3 H4 H5 j. exists (hex_encode (p_trace s)), (hex_encode (p_span s)), (hex_encode (p_parent s)), (dec_Z (p_start s)), (dec_Z (p_end s)).
  eexists _, (map (fun e => en_event (jevent_of e)) (p_events s)), (map (fun k => en_link (jlink_of k)) (p_links s)).
  assert (Hm : forall A B (f : A -> B) (P : B -> A -> Prop) l, (forall x, P (f x) x) -> Forall2 P (map f l) l).
  { intros A B f P l H. induction l; constructor; auto. }
  split; [apply hex_encode_text; assumption|]. split; [apply hex_encode_text; assumption|]. split; [apply hex_encode_text; assumption|].
  split; [apply dec_Z_text; right; assumption|]. split; [apply dec_Z_text; right; assumption|].
  do 12 (split; [eexists; split; [reflexivity|]; cbn; tauto|]).
  split. { eexists. split; [reflexivity|]. cbn [In]. do 9 right. left. unfold field. cbn [jspan_of ja_attrs]. unfold en_kvs, en_list, kvs_of. rewrite map_map. reflexivity. }
  split. { eexists. split; [reflexivity|]. cbn [In]. do 15 right. left. reflexivity. }
  do 2 (split; [eexists; split; [reflexivity|]; cbn; tauto|]).
  split. { eexists. split; [reflexivity|]. cbn [In]. do 11 right. left. unfold field. cbn [jspan_of ja_events]. unfold en_list. rewrite map_map. reflexivity. }
  split. { apply Hm. intros e. split; [eexists; split; [reflexivity|]; cbn; tauto|]. split; [|eexists; split; [reflexivity|]; cbn; tauto].
    intros Ht. exists (dec_Z (pe_time e)). split; [apply dec_Z_text; right; exact Ht|]. eexists. split; [reflexivity|]. cbn; tauto. }
  split. { eexists. split; [reflexivity|]. cbn [In]. do 13 right. left. unfold field. cbn [jspan_of ja_links]. unfold en_list. rewrite map_map. reflexivity. }
  apply Hm. intros k. split; [|split; [|eexists; split; [reflexivity|]; cbn; tauto]]; intros Hb; eexists; (split; [apply hex_encode_text; exact Hb|]);
    (eexists; split; [reflexivity|]; cbn; tauto).
Qed.
Print Assumptions C86_span_message.

(** A member that OTLP does not know changes nothing, a member left out has its default. *)
Definition span_names : list string := ["traceId"; "spanId"; "traceState"; "parentSpanId"; "flags"; "name"; "kind"; "startTimeUnixNano"; "endTimeUnixNano";
  "attributes"; "droppedAttributesCount"; "events"; "droppedEventsCount"; "links"; "droppedLinksCount"; "status"]%string.
Definition log_names : list string := ["timeUnixNano"; "observedTimeUnixNano"; "severityNumber"; "severityText"; "body"; "attributes"; "droppedAttributesCount";
  "flags"; "traceId"; "spanId"; "eventName"]%string.
Definition value_names : list string := ["stringValue"; "boolValue"; "intValue"; "doubleValue"; "arrayValue"; "kvlistValue"; "bytesValue"]%string.
Definition scalar (j : json) : Prop := match j with JArr _ | JObj _ => False | _ => True end.
Lemma get_unknown name k v l l' : of_string name <> k -> get name (l ++ (k, v) :: l') = get name (l ++ l').
Proof.
  intros Hk. unfold get. rewrite !filter_app. cbn [filter fst]. destruct (str_eqb_spec k (of_string name)); [congruence|reflexivity].
Qed.
Theorem C86_unknown_members : forall k v l l',
  (~ In k (map of_string span_names) -> de_span (JObj (l ++ (k, v) :: l')) = de_span (JObj (l ++ l'))) /\
  (~ In k (map of_string log_names) -> de_log (JObj (l ++ (k, v) :: l')) = de_log (JObj (l ++ l'))) /\
  (~ In k (map of_string value_names) -> scalar v -> de_any (JObj (l ++ (k, v) :: l')) = de_any (JObj (l ++ l'))).
Proof.
  intros k v l l'. split; [|split].
  - intros Hk. unfold de_span, obj, dft. cbn [span_names map In] in Hk. rewrite !get_unknown by tauto. reflexivity.
  - intros Hk. unfold de_log, obj, dft. cbn [log_names map In] in Hk. rewrite !get_unknown by tauto. reflexivity.
  - intros Hk Hv. unfold de_any. cbn [depth].
    assert (fold_right (fun kv n => Nat.max (depth (snd kv)) n) 0%nat (l ++ (k, v) :: l') = fold_right (fun kv n => Nat.max (depth (snd kv)) n) 0%nat (l ++ l')) as ->.
    { rewrite !fold_right_app. cbn [fold_right snd]. destruct v; try contradiction; reflexivity. }
    generalize (fold_right (fun kv n => Nat.max (depth (snd kv)) n) 0%nat (l ++ l')). intros n. cbn [de_value].
    generalize (@None jv). induction l as [|[k' j] l IH]; intros acc; cbn [app visit].
    + assert (de_known (de_value n) k v = Some None) as ->; [|reflexivity]. unfold de_known. cbn [value_names map In] in Hk.
      repeat (match goal with |- context [str_eqb k ?x] => destruct (str_eqb_spec k x) as [e|_]; [symmetry in e; exfalso; tauto|] end). reflexivity.
    + destruct (de_known (de_value n) k' j) as [[w|]|]; [apply IH|apply IH|reflexivity].
Qed.
Print Assumptions C86_unknown_members.
Theorem C86_missing_members :
  de_span (JObj []) = Some (mk_jspan [] [] [] [] 0 [] 0 0 0 [] 0 [] 0 [] 0 None) /\
  de_log (JObj []) = Some (mk_jlog 0 0 0 [] None [] 0 0 [] [] []) /\
  de_scope (JObj []) = Some (mk_jscope [] [] [] 0) /\ de_resource (JObj []) = Some (mk_jres [] 0) /\
  de_event (JObj []) = Some (mk_jevent 0 [] [] 0) /\ de_link (JObj []) = Some (mk_jlink [] [] [] [] 0 0) /\
  de_status (JObj []) = Some (mk_jstatus [] 0).
Proof. repeat match goal with |- _ /\ _ => split end; reflexivity. Qed.
Print Assumptions C86_missing_members.

(** An id that is not made of pairs of hexadecimal digits is refused. *)
Theorem C86_bad_ids : forall s b, de_hex (JStr s) = Some b ->
  List.length s = (2 * List.length b)%nat /\ Forall (fun c => 48 <= c <= 57 \/ 97 <= c <= 102 \/ 65 <= c <= 70)%N s.
Proof.
  cbn [de_hex]. intros s. remember (List.length s) as n eqn:Hn. revert s Hn. induction n as [n IH] using lt_wf_ind. intros s Hn b H. subst n.
  destruct s as [|x [|y s]]; cbn [hex_decode] in H; [injection H as <-; split; [reflexivity|constructor]|discriminate|].
  destruct (hex_val x) as [a|] eqn:Ex; [|discriminate]. destruct (hex_val y) as [c|] eqn:Ey; [|discriminate].
  destruct (hex_decode s) as [r|] eqn:Er; [|discriminate]. injection H as <-. destruct (IH (List.length s) ltac:(cbn [List.length]; lia) s eq_refl r Er) as [I1 I2].
  assert (G : forall z w, hex_val z = Some w -> (48 <= z <= 57 \/ 97 <= z <= 102 \/ 65 <= z <= 70)%N).
  { clear. intros z w E. unfold hex_val, is_digit, between in E.
    repeat match type of E with (if ?b then _ else _) = _ => destruct b eqn:? end; try discriminate; lia. }
  split; [cbn [List.length]; lia|]. constructor; [eapply G, Ex|]. constructor; [eapply G, Ey|exact I2].
Qed.
Print Assumptions C86_bad_ids.

(** ** What does not survive *)
Lemma all_some_none {A B} (f : A -> option B) l x : In x l -> f x = None -> all_some (map f l) = None.
Proof.
  induction l as [|y l IH]; intros Hx Hf; [contradiction|]. cbn. destruct Hx as [-> |Hx]; [rewrite Hf; reflexivity|].
  rewrite IH by assumption. destruct (f y); reflexivity.
Qed.
Lemma list_none {A} (en : A -> json) (de : json -> option A) l x : In x l -> de (en x) = None -> de_list de (en_list en l) = None.
Proof. intros Hx Hf. unfold de_list, en_list. rewrite map_map. eapply all_some_none; [exact Hx|exact Hf]. Qed.
Lemma nonfinite_none f : f64_is_finite f = false -> de_any (en_any (Some (DV f))) = None.
Proof. intros H. unfold de_any. cbn [en_any en_value]. unfold en_f64. rewrite H. reflexivity. Qed.
Lemma kvs_nonfinite k f l : f64_is_finite f = false -> In (k, Some (Some (DV f))) l -> de_kvs (en_kvs l) = None.
Proof.
  intros Hf Hin. eapply list_none; [exact Hin|]. unfold de_kv, de_kv_with, en_kv, obj, req, dft. compute_fields. cbn [de_str].
  unfold en_option, de_option. rewrite nonfinite_none by exact Hf. unfold en_any, en_value. reflexivity.
Qed.
(** A NaN or infinite float in one attribute of one span makes the whole request
    unreadable; in one attribute of one data point it silently removes all the data of
    the metric; as the value of a data point it silently removes that value.  An empty
    AnyValue cannot be read either. *)
Theorem C133_nonfinite_refuted : forall f, f64_is_finite f = false ->
  (forall k s g r req, In (k, Some (Some (DV f))) (ja_attrs s) -> In s (jg_items g) -> In g (jp_scopes r) -> In r req -> de_spans (en_spans req) = None) /\
  (forall k p m ps, In (k, Some (Some (DV f))) (jn_attrs p) -> In p ps -> jm_data m = Some (JGauge ps) ->
     de_metric (en_metric m) = Some (mk_jmetric (jm_name m) (jm_desc m) (jm_unit m) None)) /\
  (forall p, ok_np (mk_jnp (jn_attrs p) (jn_start p) (jn_time p) (jn_ex p) None) -> jn_value p = Some (AsDouble f) ->
     de_npoint (en_npoint p) = Some (mk_jnp (jn_attrs p) (jn_start p) (jn_time p) (jn_ex p) None)).
Proof.
  intros f Hf. split; [|split].
  - intros k s g r rq Hk Hs Hg Hr. unfold de_spans, en_spans, de_request, en_request, obj, req. compute_fields.
    eapply list_none; [exact Hr|]. unfold de_group, en_group, obj, dft. compute_fields.
    rewrite (list_none (en_scoped en_span "spans") (de_scoped de_span "spans") (jp_scopes r) g Hg); [destruct (de_option de_resource _); reflexivity|].
    unfold de_scoped, en_scoped, obj, dft. compute_fields.
    rewrite (list_none en_span de_span (jg_items g) s Hs); [destruct (de_option de_scope _); reflexivity|].
    unfold de_span, en_span, obj, dft. compute_fields. rewrite (kvs_nonfinite k f) by assumption.
    cbn [de_str]. destruct (de_hex (en_hex (ja_trace s))), (de_hex (en_hex (ja_span s))), (de_hex (en_hex (ja_parent s))), (de_u32 (JInt (ja_flags s))),
      (de_i32 (JInt (ja_kind s))), (de_u64s (en_u64s (ja_start s))), (de_u64s (en_u64s (ja_end s))); reflexivity.
  - intros k p m ps Hk Hp Hm. unfold de_metric, en_metric. rewrite Hm. cbn [app]. unfold en_data, obj, dft. compute_fields. cbn [de_str].
    unfold de_flat, data_variant, obj, dft. compute_fields.
    rewrite (list_none en_npoint de_npoint ps p Hp); [reflexivity|].
    unfold de_npoint, en_npoint. destruct (jn_value p) as [[z|q]|]; cbn [app]; unfold en_num, obj, dft; compute_fields; rewrite (kvs_nonfinite k f) by assumption; reflexivity.
  - intros p (H1 & H2 & H3 & H4 & _) Hv. cbn in H1, H2, H3, H4. unfold de_npoint, en_npoint. rewrite Hv. cbn [app]. unfold en_num, en_f64, obj, dft. rewrite Hf. compute_fields.
    rewrite kvs_rt, !u64s_rt by assumption. rewrite list_rt by (eapply Forall_impl; [|exact H4]; exact ex_rt).
    unfold de_flat, num_variant. compute_fields. reflexivity.
Qed.
Print Assumptions C133_nonfinite_refuted.
Theorem C133_empty_value_refuted : de_any (en_any None) = None.
Proof. reflexivity. Qed.
Print Assumptions C133_empty_value_refuted.

(** The value of an exemplar is nested in a field of its own instead of being a field of
    the exemplar as in OTLP/JSON, so a receiver following the specification finds none. *)
Theorem C133_exemplar_form_refuted : forall e n, jx_value e = Some n ->
  (forall v, ~ has (en_exemplar e) "asInt" v /\ ~ has (en_exemplar e) "asDouble" v) /\
  has (en_exemplar e) "value" (JObj [match n with AsInt z => (of_string "asInt", JInt z) | AsDouble f => (of_string "asDouble", en_f64 f) end]).
Proof.
  intros e n Hn. split.
  - intros v. split; intros (l & E & Hin); injection E as <-; cbn in Hin;
      repeat (destruct Hin as [Hin|Hin]; [apply (f_equal fst) in Hin; cbn in Hin; discriminate Hin|]); contradiction.
  - eexists. split; [reflexivity|]. cbn [en_option]. rewrite Hn. destruct n; cbn; tauto.
Qed.
Print Assumptions C133_exemplar_form_refuted.

(** ** Concrete cases *)
Definition demo_value : jv :=
  KV [(of_string "list", Some (Some (AV [Some (IV (-9223372036854775808)); Some (XV [0; 255; 16; 7]%N); Some (SV [8364%N])]))); (of_string "none", None);
      (of_string "nested", Some (Some (KV [(of_string "x", Some (Some (BV true)))])))].
Definition demo_span : jspan :=
  mk_jspan [1;2;3]%N [171]%N (of_string "a=b") [] 1 (of_string "op") 2 18446744073709551615 0 [(of_string "k", Some (Some demo_value))] 3
    [mk_jevent 5 (of_string "e") [] 4294967295] 0 [mk_jlink [7]%N [8]%N [] [] 0 1] 0 (Some (mk_jstatus [] 2)).
Example C86_nonvacuous :
  ok_span demo_span /\
  de_spans (en_spans [mk_jgroup None [mk_jscoped None [demo_span] (of_string "u")] []]) = Some [mk_jgroup None [mk_jscoped None [demo_span] (of_string "u")] []] /\
  base64_encode (of_string "foob") = of_string "Zm9vYg==" /\ base64_encode (of_string "fo") = of_string "Zm8=" /\ hex_encode [1; 171]%N = of_string "01ab" /\
  dec_Z (-120) = of_string "-120".
Proof.
  assert (ok_span demo_span) as H.
  { assert (bytes [1;2;3]%N /\ bytes [171]%N /\ bytes [7]%N /\ bytes [8]%N /\ bytes [0; 255; 16; 7]%N) as (B1 & B2 & B3 & B4 & B5) by (repeat split; repeat constructor).
    unfold ok_span, demo_span. cbn [ja_trace ja_span ja_parent ja_flags ja_kind ja_start ja_end ja_attrs ja_attrs_dropped ja_events ja_events_dropped ja_links ja_links_dropped ja_status].
    repeat match goal with |- _ /\ _ => split end; try assumption; try (unfold u32r, i32r, u64r; lia); [constructor| | | |].
    - constructor; [|constructor]. unfold ok_kv. cbn. repeat split; try lia. exact B5.
    - constructor; [|constructor]. unfold ok_event, u64r, u32r. cbn. repeat split; try lia. constructor.
    - constructor; [|constructor]. unfold ok_link, u32r. cbn. repeat split; try lia; try assumption. constructor.
    - intros s [= <-]. unfold ok_status, i32r. cbn. lia. }
  split; [exact H|]. split; [|repeat split; reflexivity]. vm_compute. reflexivity.
Qed.
