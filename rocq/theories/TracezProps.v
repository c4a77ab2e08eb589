(** C159: the trace view shows a span as its export does. *)
From Coq Require Import String List NArith ZArith Bool Lia.
From Verif Require Import Str StrProofs F64 TraceModel TraceProofs SpanModel AttrModel KvModel OtlpModel ProtoModel ProtoSpec ProtoProofs ProtoProps TracezModel.
Import ListNotations.
Local Open Scope N_scope.
Local Notation "'let?' x ':=' e 'in' b" := (match e with Some x => b | None => None end) (at level 200, x pattern, b at level 200).

(** * A reader written from tracez.proto
    LatencyData: traceid 1, spanid 2, parentid 3, starttime 4, endtime 5, attributes 6,
    events 7, links 8.  RunningData and ErrorData have no endtime: attributes 5, events 6,
    links 7, and for errors status 8.  TracezCounts: spanname 1, latency 2, running 3,
    error 4. *)
Record seen := mk_seen { s_trace : list N; s_span : list N; s_parent : list N; s_start : Z; s_end : option Z;
  s_attrs : list (str * any); s_events : list pevent; s_links : list plink; s_status : option (str * Z) }.
Definition read_latency : list N -> option seen :=
  read_message [1; 2; 3; 4; 5; 6; 7; 8] (fun get =>
    let? t := r_bytes (get 1) in let? s := r_bytes (get 2) in let? p := r_bytes (get 3) in
    let? b := r_time (get 4) in let? e := r_time (get 5) in
    let? a := r_msgs read_kv (get 6) in let? ev := r_msgs read_event (get 7) in let? ln := r_msgs read_link (get 8) in
    Some (mk_seen t s p b (Some e) a ev ln None)).
Definition read_running : list N -> option seen :=
  read_message [1; 2; 3; 4; 5; 6; 7] (fun get =>
    let? t := r_bytes (get 1) in let? s := r_bytes (get 2) in let? p := r_bytes (get 3) in let? b := r_time (get 4) in
    let? a := r_msgs read_kv (get 5) in let? ev := r_msgs read_event (get 6) in let? ln := r_msgs read_link (get 7) in
    Some (mk_seen t s p b None a ev ln None)).
Definition read_error : list N -> option seen :=
  read_message [1; 2; 3; 4; 5; 6; 7; 8] (fun get =>
    let? t := r_bytes (get 1) in let? s := r_bytes (get 2) in let? p := r_bytes (get 3) in let? b := r_time (get 4) in
    let? a := r_msgs read_kv (get 5) in let? ev := r_msgs read_event (get 6) in let? ln := r_msgs read_link (get 7) in
    let? st := r_omsg read_status (get 8) in Some (mk_seen t s p b None a ev ln st)).
Definition read_counts : list N -> option (str * list N * N * N) :=
  read_message [1; 2; 3; 4] (fun get =>
    let? n := r_str (get 1) in let? l := r_packed read_varint (get 2) in let? r := r_uint32 (get 3) in let? e := r_uint32 (get 4) in
    Some (n, l, r, e)).

(** What is to be seen of a span, said from its exported form [p]: the same ids, times,
    attributes, events and links.  An exported root has an empty parent; here it is eight
    zero bytes. *)
Definition shows (p : pspan) (ending : bool) (status : option (str * Z)) (v : seen) : Prop :=
  s_trace v = p_trace p /\ s_span v = p_span p /\
  (p_parent p <> [] -> s_parent v = p_parent p) /\ (p_parent p = [] -> s_parent v = repeat 0 8) /\
  s_start v = p_start p /\ s_end v = (if ending then Some (p_end p) else None) /\
  s_attrs v = p_attrs p /\ s_events v = p_events p /\ s_links v = p_links p /\ s_status v = status.

Lemma tz_events_same l : map tz_event l = map event_msg l.
Proof. reflexivity. Qed.
Lemma parent_shown d : let p := if N.eqb (sd_parent d) 0 then [] else span_id_to_bytes (@sd_parent attr d) in
  (p <> [] -> span_id_to_bytes (sd_parent d) = p) /\ (p = [] -> span_id_to_bytes (sd_parent d) = repeat 0 8).
Proof.
  cbv zeta. destruct (N.eqb_spec (sd_parent d) 0) as [E|E].
  - rewrite E. split; [contradiction|intros _; reflexivity].
  - split; [reflexivity|]. intros H. discriminate H.
Qed.

Section shown.
Context (s : sdata) (Hs : typed_span s).
Local Definition evs : Forall event_in_range (map tz_event (sd_events (d_data s))).
Proof. destruct Hs as (_ & _ & _ & _ & _ & H & _). apply Forall_map. eapply Forall_impl; [|exact H]. apply range_event. Qed.
Local Definition lns : Forall link_in_range (map link_msg (sd_links (d_data s))).
Proof. destruct Hs as (_ & _ & _ & _ & _ & _ & _ & H & _). apply Forall_map. eapply Forall_impl; [|exact H]. apply range_link. Qed.
Local Definition ats : kvs_in_range (attrs_msg (sd_attrs (d_data s))).
Proof. destruct Hs as (_ & _ & _ & H & _). apply range_attrs, H. Qed.
End shown.

Local Hint Resolve time_nanos : proto.

(** The three views of any span. *)
Theorem C159_latency_shown : forall s, typed_span s -> exists v,
  read_latency (latency_bytes (latency_msg s)) = Some v /\ shows (span_msg s) true None v.
Proof.
  intros s Hs. eexists. split.
  - unfold read_latency, latency_bytes, latency_msg. cbn [tl_trace tl_span tl_parent tl_start tl_end tl_attrs tl_events tl_links]. msg.
    rewrite !bytes_ok, !time_ok, (attrs_ok _ (ats s Hs)), (msgs_range _ _ _ _ event_ok (evs s Hs)), (msgs_range _ _ _ _ link_ok (lns s Hs)) by apply time_nanos.
    reflexivity.
  - destruct (parent_shown (d_data s)) as [H1 H2]. repeat (split; [first [reflexivity|exact H1|exact H2]|]). reflexivity.
Qed.
Print Assumptions C159_latency_shown.
Theorem C159_running_shown : forall s, typed_span s -> exists v,
  read_running (running_bytes (running_msg s)) = Some v /\ shows (span_msg s) false None v.
Proof.
  intros s Hs. eexists. split.
  - unfold read_running, running_bytes, running_msg. cbn [tr_trace tr_span tr_parent tr_start tr_attrs tr_events tr_links]. msg.
    rewrite !bytes_ok, !time_ok, (attrs_ok _ (ats s Hs)), (msgs_range _ _ _ _ event_ok (evs s Hs)), (msgs_range _ _ _ _ link_ok (lns s Hs)) by apply time_nanos.
    reflexivity.
  - destruct (parent_shown (d_data s)) as [H1 H2]. repeat (split; [first [reflexivity|exact H1|exact H2]|]). reflexivity.
Qed.
Print Assumptions C159_running_shown.
(** The error view carries the status exactly of spans that failed: its description, and
    the code 2 that an export gives. *)
Theorem C159_error_shown : forall s, typed_span s -> exists v,
  read_error (error_bytes (error_msg s)) = Some v /\
  shows (span_msg s) false (if Z.eqb (p_code (span_msg s)) 2 then Some (p_message (span_msg s), p_code (span_msg s)) else None) v.
Proof.
  intros s Hs. eexists. split.
  - unfold read_error, error_bytes, error_msg. cbn [te_trace te_span te_parent te_start te_attrs te_events te_links te_status]. msg.
    rewrite !bytes_ok, !time_ok, (attrs_ok _ (ats s Hs)), (msgs_range _ _ _ _ event_ok (evs s Hs)), (msgs_range _ _ _ _ link_ok (lns s Hs)) by apply time_nanos.
    rewrite omsg_ok; [reflexivity|]. intros [m c] E. cbn [fst snd]. destruct Hs as (_ & _ & _ & _ & _ & _ & _ & _ & _ & Ht & _).
    destruct (sd_status (d_data s)) as [|m'|]; try discriminate E. injection E as -> <-. apply status_ok; [exact Ht|unfold i32; lia].
  - destruct (parent_shown (d_data s)) as [H1 H2]. repeat (split; [first [reflexivity|exact H1|exact H2]|]).
    cbn [s_status]. unfold span_msg. cbn [p_code p_message]. destruct (sd_status (d_data s)); reflexivity.
Qed.
Print Assumptions C159_error_shown.
Theorem C159_counts_shown : forall n l r e, text n -> u32 r -> u32 e ->
  read_counts (counts_bytes (mk_pcounts n l r e)) = Some (n, l, r, e).
Proof.
  intros n l r e Hn Hr He. unfold read_counts, counts_bytes. msg. cbn [tc_name tc_latency tc_running tc_error].
  rewrite str_ok, packed_varint_ok, !uint32_ok by assumption. reflexivity.
Qed.
Print Assumptions C159_counts_shown.

Example C159_nonvacuous : typed_span ex_span158 /\
  option_map s_status (read_error (error_bytes (error_msg ex_span158))) = Some (Some (of_string "bad", 2%Z)) /\
  option_map s_end (read_latency (latency_bytes (latency_msg ex_span158))) = Some (Some 300000%Z) /\
  option_map s_parent (read_running (running_bytes (running_msg ex_span158))) = Some [0; 0; 0; 0; 0; 0; 0; 5].
Proof. split; [apply C158_nonvacuous|]. vm_compute. repeat split. Qed.
