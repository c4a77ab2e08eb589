(** C62: what a receiver can read back from the messages. *)
From Coq Require Import String List NArith ZArith Bool Lia Reals.
From Verif Require Import Str StrProofs F64 F64Proofs TraceModel TraceSpec TraceProofs TraceProps SpanModel LogModel AttrModel KvModel OtlpModel OtlpProps.
Import ListNotations.
Local Open Scope Z_scope.

(** * Reading back, by the meaning OTLP gives the fields *)
(** An attribute value: the type of an array is that of its elements. *)
Definition get_bool (a : any) : option bool := match a with PBool b => Some b | _ => None end.
Definition get_int (a : any) : option Z := match a with PInt b => Some b | _ => None end.
Definition get_double (a : any) : option f64 := match a with PDouble b => Some b | _ => None end.
Definition get_string (a : any) : option str := match a with PString b => Some b | _ => None end.
Definition value_back (a : any) : option value :=
  match a with
  | PString s => Some (VString s)
  | PBool b => Some (VBool b)
  | PInt z => Some (VI64 z)
  | PDouble f => Some (VF64 f)
  | PArray (PBool b :: l) => option_map (fun x => VArray (ABool x)) (all_some (map get_bool (PBool b :: l)))
  | PArray (PInt b :: l) => option_map (fun x => VArray (AI64 x)) (all_some (map get_int (PInt b :: l)))
  | PArray (PDouble b :: l) => option_map (fun x => VArray (AF64 x)) (all_some (map get_double (PDouble b :: l)))
  | PArray (PString b :: l) => option_map (fun x => VArray (AString x)) (all_some (map get_string (PString b :: l)))
  | _ => None
  end.
Definition attrs_back (l : list (str * any)) : option (list attr) := all_some (map (fun kv => option_map (pair (fst kv)) (value_back (snd kv))) l).
Fixpoint log_back (a : any) : lany :=
  match a with
  | PString s => LString s | PBool b => LBool b | PInt z => LInt z | PDouble f => LDouble f | PBytes b => LBytes b
  | PArray l => LList (map log_back l)
  | PKvlist l => LMap (map (fun kv => (fst kv, log_back (snd kv))) l)
  end.
(** Arrays that say what they are arrays of. *)
Definition typed (v : value) : Prop :=
  match v with VArray (ABool []) | VArray (AI64 []) | VArray (AF64 []) | VArray (AString []) => False | _ => True end.
Definition typed_attrs (l : list attr) : Prop := Forall (fun kv => typed (snd kv)) l.
(** Times a u64 of nanoseconds since the epoch can hold. *)
Definition in_time (t : Z) : Prop := 0 <= t < 2 ^ 64.
(** OTLP's span kinds and status codes. *)
Definition otlp_kind (z : Z) : option N :=
  (if z =? 1 then Some 4%N else if z =? 2 then Some 1%N else if z =? 3 then Some 0%N else if z =? 4 then Some 2%N else if z =? 5 then Some 3%N else None).
Definition otlp_status (code : Z) (message : str) : option status :=
  if code =? 0 then Some Unset else if code =? 1 then Some StatusOk else if code =? 2 then Some (Error message) else None.

(** * Lemmas *)
Lemma all_some_pre : forall A B (f : A -> B) (g : B -> option A) l, (forall x, g (f x) = Some x) -> all_some (map g (map f l)) = Some l.
Proof. intros A B f g l H. induction l as [|x l IH]; [reflexivity|]. cbn [map all_some]. rewrite H, IH. reflexivity. Qed.
Lemma value_roundtrip : forall v, typed v -> value_back (any_of_value v) = Some v.
Proof.
  intros [b|z|f|s|[l|l|l|l]] H; try reflexivity; destruct l as [|x l]; try contradiction;
    cbn [any_of_value map value_back get_bool get_int get_double get_string all_some].
  - rewrite (all_some_pre _ _ PBool get_bool) by reflexivity. reflexivity.
  - rewrite (all_some_pre _ _ PInt get_int) by reflexivity. reflexivity.
  - rewrite (all_some_pre _ _ PDouble get_double) by reflexivity. reflexivity.
  - rewrite (all_some_pre _ _ PString get_string) by reflexivity. reflexivity.
Qed.
Lemma attrs_roundtrip : forall l, typed_attrs l -> attrs_back (attrs_msg l) = Some l.
Proof.
  intros l H. unfold attrs_back, attrs_msg. induction H as [|[k v] l Hv Hl IH]; [reflexivity|]. cbn [map fst snd all_some]. rewrite value_roundtrip by exact Hv. cbn [option_map].
  rewrite IH. reflexivity.
Qed.
Lemma nanos_id : forall t, in_time t -> to_nanos t = t.
Proof. intros t [H1 H2]. unfold to_nanos. destruct (Z.ltb_spec t 0); [lia|]. apply Z.mod_small. lia. Qed.

(** * C62 *)
Theorem C62_attribute_values : forall v, typed v -> value_back (any_of_value v) = Some v.
Proof. exact value_roundtrip. Qed.
Print Assumptions C62_attribute_values.
(** The element type of an empty array is lost, and nothing else is. *)
Theorem C118_empty_array_refuted : ~ (forall a b, any_of_value a = any_of_value b -> a = b).
Proof. intros H. specialize (H (VArray (ABool [])) (VArray (AI64 [])) eq_refl). discriminate. Qed.
Print Assumptions C118_empty_array_refuted.
Theorem C62_attribute_values_injective : forall a b, any_of_value a = any_of_value b -> a = b \/ (any_of_value a = PArray []).
Proof.
  intros a b H. assert (D : forall v, typed v \/ any_of_value v = PArray []) by (intros [| | | |[[|]|[|]|[|]|[|]]]; cbn; auto).
  destruct (D a) as [Ta|]; [|auto]. destruct (D b) as [Tb|Eb]; [|right; congruence]. left. apply value_roundtrip in Ta, Tb. congruence.
Qed.
Print Assumptions C62_attribute_values_injective.

(** Log bodies and attributes of any nesting. *)
Theorem C62_log_values : forall v, log_back (any_of_log v) = v.
Proof.
  fix IH 1. intros [z|f|s|b|b|l|l]; cbn [any_of_log log_back]; try reflexivity; f_equal; rewrite map_map.
  - induction l as [|x l IHl]; [reflexivity|]. cbn [map]. rewrite IH, IHl. reflexivity.
  - induction l as [|[k x] l IHl]; [reflexivity|]. cbn [map fst snd] in *. rewrite IH, IHl. reflexivity.
Qed.
Print Assumptions C62_log_values.

Theorem C62_times : forall t, in_time t -> to_nanos t = t.
Proof. exact nanos_id. Qed.
Print Assumptions C62_times.
Theorem C118_times_refuted : ~ (forall t u, to_nanos t = to_nanos u -> t = u).
Proof. intros H. specialize (H (-1) 0 eq_refl). discriminate. Qed.
Print Assumptions C118_times_refuted.
(** Times before the epoch read as the epoch; later ones modulo 2^64 nanoseconds. *)
Theorem C62_times_general : forall t, in_time (to_nanos t) /\ (t < 0 -> to_nanos t = 0) /\ (0 <= t -> exists k, 0 <= k /\ t = to_nanos t + k * 2 ^ 64).
Proof.
  intros t. unfold to_nanos, in_time. destruct (Z.ltb_spec t 0).
  - split; [lia|]. split; [reflexivity|lia].
  - pose proof (Z.mod_pos_bound t (2 ^ 64) ltac:(lia)) as Hb. split; [exact Hb|]. split; [lia|]. intros _. exists (t / 2 ^ 64). split; [apply Z.div_pos; lia|].
    pose proof (Z.div_mod t (2 ^ 64) ltac:(lia)) as Hd. rewrite (Z.mul_comm (t / 2 ^ 64)). rewrite Hd at 1. ring.
Qed.
Print Assumptions C62_times_general.

(** Numbers of data points. *)
Theorem C118_u64_refuted : ~ (forall a b, 0 <= a < 2 ^ 64 -> 0 <= b < 2 ^ 64 -> num_of_u64 a = num_of_u64 b -> a = b).
Proof. intros H. specialize (H 0 (2 ^ 63) ltac:(lia) ltac:(lia) eq_refl). discriminate. Qed.
Print Assumptions C118_u64_refuted.
Theorem C62_numbers : forall z f, (num_of_u64 z = if z <? 2 ^ 63 then AsInt z else AsInt 0) /\ num_of_i64 z = AsInt z /\ num_of_f64 f = AsDouble f.
Proof. intros z f. unfold num_of_u64. destruct (z <? 2 ^ 63); repeat split; reflexivity. Qed.
Print Assumptions C62_numbers.

(** ** Spans *)
Definition ctx_ok (c : span_context) : Prop := (sc_trace c < 2 ^ 128)%N /\ (sc_span c < 2 ^ 64)%N /\ ts_reach (TraceModel.sc_state c).
Definition ev_ok (e : @event attr) : Prop := in_time (ev_time e) /\ typed_attrs (ev_attrs e).
Definition ln_ok (l : @link attr) : Prop := ctx_ok (ln_sc l) /\ typed_attrs (ln_attrs l).
Definition span_ok (s : sdata) : Prop :=
  ctx_ok (d_ctx s) /\ (sd_parent (d_data s) < 2 ^ 64)%N /\ (sd_kind (d_data s) <= 4)%N /\ in_time (sd_start (d_data s)) /\ in_time (sd_end (d_data s)) /\
  typed_attrs (sd_attrs (d_data s)) /\ Forall ev_ok (sd_events (d_data s)) /\ Forall ln_ok (sd_links (d_data s)).
(** The parts of a span context a receiver sees. *)
Definition reads_ctx (c : span_context) (trace span : list N) (state : str) (flags : N) : Prop :=
  List.length trace = 16%nat /\ of_be_bytes trace = sc_trace c /\ List.length span = 8%nat /\ of_be_bytes span = sc_span c /\
  (exists t, ts_from_str state = Ok t /\ members t = members (TraceModel.sc_state c)) /\ flags = sc_flags c.
Lemma ctx_reads : forall c, ctx_ok c -> reads_ctx c (trace_id_to_bytes (sc_trace c)) (span_id_to_bytes (sc_span c)) (ts_header (TraceModel.sc_state c)) (sc_flags c).
Proof.
  intros c (H1 & H2 & H3). unfold reads_ctx.
  destruct (C12_trace_id_roundtrip _ H1) as (A1 & _ & A2 & _). destruct (C12_span_id_roundtrip _ H2) as (B1 & _ & B2 & _). destruct (C11_header_roundtrip _ H3) as (t & E1 & E2 & _).
  repeat split; try assumption. exists t. auto.
Qed.
Theorem C62_spans : forall s, span_ok s ->
  let m := span_msg s in let d := d_data s in
  reads_ctx (d_ctx s) (p_trace m) (p_span m) (p_state m) (p_flags m) /\
  (sd_parent d = 0%N <-> p_parent m = []) /\ (sd_parent d <> 0%N -> List.length (p_parent m) = 8%nat /\ of_be_bytes (p_parent m) = sd_parent d) /\
  p_name m = sd_name d /\ otlp_kind (p_kind m) = Some (sd_kind d) /\ p_start m = sd_start d /\ p_end m = sd_end d /\
  attrs_back (p_attrs m) = Some (sd_attrs d) /\ p_attrs_dropped m = sd_attrs_dropped d /\
  Forall2 (fun e p => pe_time p = ev_time e /\ pe_name p = ev_name e /\ attrs_back (pe_attrs p) = Some (ev_attrs e) /\ pe_dropped p = ev_dropped e) (sd_events d) (p_events m) /\
  p_events_dropped m = sd_events_dropped d /\
  Forall2 (fun l p => reads_ctx (ln_sc l) (pl_trace p) (pl_span p) (pl_state p) (pl_flags p) /\ attrs_back (pl_attrs p) = Some (ln_attrs l) /\ pl_dropped p = ln_dropped l) (sd_links d) (p_links m) /\
  p_links_dropped m = sd_links_dropped d /\ otlp_status (p_code m) (p_message m) = Some (sd_status d).
Proof.
  intros [c d sc] (Hc & Hp & Hk & Ht1 & Ht2 & Ha & He & Hl). cbn zeta. unfold span_msg. cbn [d_ctx d_data d_scope p_trace p_span p_state p_flags p_parent p_name p_kind p_start p_end p_attrs p_attrs_dropped p_events p_events_dropped p_links p_links_dropped p_code p_message] in *.
  split; [apply ctx_reads; exact Hc|]. destruct (C12_span_id_roundtrip _ Hp) as (B1 & _ & B2 & _).
  split; [destruct (N.eqb_spec (sd_parent d) 0); split; intros E; try congruence; try reflexivity; rewrite E in B2; discriminate|].
  split; [intros Hn; destruct (N.eqb_spec (sd_parent d) 0); [contradiction|split; assumption]|]. split; [reflexivity|].
  split; [assert (Hk' : sd_kind d = 0%N \/ sd_kind d = 1%N \/ sd_kind d = 2%N \/ sd_kind d = 3%N \/ sd_kind d = 4%N) by lia; destruct Hk' as [-> |[-> |[-> |[-> | ->]]]]; reflexivity|].
  split; [apply nanos_id; exact Ht1|]. split; [apply nanos_id; exact Ht2|]. split; [apply attrs_roundtrip; exact Ha|]. split; [reflexivity|].
  split; [clear - He; induction He as [|e l [H1 H2] Hl IH]; cbn [map]; constructor; [|exact IH]; cbn; repeat split; [apply nanos_id; exact H1|apply attrs_roundtrip; exact H2]|].
  split; [reflexivity|].
  split; [clear - Hl; induction Hl as [|e l [H1 H2] Hl IH]; cbn [map]; constructor; [|exact IH]; cbn [link_msg pl_trace pl_span pl_state pl_flags pl_attrs pl_dropped]; split; [apply ctx_reads; exact H1|split; [apply attrs_roundtrip; exact H2|reflexivity]]|].
  split; [reflexivity|]. destruct (sd_status d); reflexivity.
Qed.
Print Assumptions C62_spans.

Example C62_spans_nonvacuous : span_ok (ex_sdata 7 (mk_scope [] None None [])).
Proof.
  assert (R : ts_reach None) by constructor.
  unfold span_ok, ex_sdata, ex_data, ctx_ok, in_time, typed_attrs; cbn. repeat split; try lia; try constructor.
Qed.

(** ** Log records *)
Definition log_ok (r : lrec) : Prop :=
  (forall t, lr_time r = Some t -> in_time t) /\ (forall t, lr_observed r = Some t -> in_time t) /\
  (forall c, lr_trace r = Some c -> (tc_trace c < 2 ^ 128)%N /\ (tc_span c < 2 ^ 64)%N) /\ (forall n, lr_sev r = Some n -> (1 <= n <= 24)%N).
(** Optional fields are read with their proto defaults: a missing time as 0, a missing
    text as "", missing flags as 0, no trace context as empty ids. *)
Theorem C62_log_records : forall r m, log_ok r -> log_msg r = Some m ->
  (match lr_time r with Some t => q_time m = t | None => q_time m = 0 end) /\ lr_observed r = Some (q_observed m) /\
  map (fun kv => (fst kv, log_back (snd kv))) (q_attrs m) = attributes r /\
  (match lr_event r with Some s => q_event m = s | None => q_event m = [] end) /\
  (match lr_sev r with Some n => Z.to_N (q_sev m) = n /\ q_sev m <> 0 | None => q_sev m = 0 end) /\
  (match lr_sevtext r with Some s => q_sevtext m = s | None => q_sevtext m = [] end) /\
  option_map log_back (q_body m) = lr_body r /\
  (match lr_trace r with
   | Some c => List.length (q_trace m) = 16%nat /\ of_be_bytes (q_trace m) = tc_trace c /\ List.length (q_span m) = 8%nat /\ of_be_bytes (q_span m) = tc_span c /\
       match tc_flags c with Some f => q_flags m = f | None => q_flags m = 0%N end
   | None => q_trace m = [] /\ q_span m = [] /\ q_flags m = 0%N end).
Proof.
  intros r m (H1 & H2 & H3 & H4) H. unfold log_msg in H. destruct (lr_observed r) as [o|]; [|discriminate]. injection H as <-.
  cbn [q_time q_observed q_attrs q_event q_sev q_sevtext q_body q_flags q_span q_trace].
  split; [destruct (lr_time r) as [t|]; cbn [omap]; [apply nanos_id; auto|reflexivity]|]. split; [rewrite nanos_id by auto; reflexivity|].
  split; [rewrite map_map; erewrite map_ext; [apply map_id|]; intros [k v]; cbn [fst snd]; rewrite C62_log_values; reflexivity|].
  split; [destruct (lr_event r); reflexivity|]. split; [destruct (lr_sev r) as [n|]; cbn [omap]; [specialize (H4 n eq_refl); lia|reflexivity]|].
  split; [destruct (lr_sevtext r); reflexivity|]. split; [destruct (lr_body r); cbn [option_map]; [rewrite C62_log_values|]; reflexivity|].
  destruct (lr_trace r) as [c|]; cbn [omap]; [|repeat split]. destruct (H3 c eq_refl) as [Ha Hb].
  destruct (C12_trace_id_roundtrip _ Ha) as (A1 & _ & A2 & _). destruct (C12_span_id_roundtrip _ Hb) as (B1 & _ & B2 & _). repeat split; try assumption. destruct (tc_flags c); reflexivity.
Qed.
Print Assumptions C62_log_records.

Example C62_log_records_nonvacuous :
  let r : lrec := mk_rec (Some [1%N]) None (Some 3) (Some 5) (Some (mk_tctx 9%N 8%N (Some 1%N))) None (Some 9%N) (Some (LList [LMap [([1%N], LInt 2)]; LBool true])) (ga_new None PREALLOC) in
  log_ok r /\ exists m, log_msg r = Some m /\ q_body m = Some (PArray [PKvlist [([1%N], PInt 2)]; PBool true]).
Proof.
  cbn zeta. split; [|eexists; split; reflexivity]. unfold log_ok, in_time. cbn.
  split; [intros t E; injection E as <-; lia|]. split; [intros t E; injection E as <-; lia|]. split; [intros c E; injection E as <-; cbn; lia|]. intros n E. injection E as <-. lia.
Qed.

(** ** Metrics *)
(** A number as a data point, and as a float, stands for the measurement. *)
Section metrics.
Context {T : Type} (as_num : T -> pnum -> Prop) (as_flt : T -> f64 -> Prop).
Definition opt_rel {A B} (R : A -> B -> Prop) (a : option A) (b : option B) : Prop := match a, b with Some x, Some y => R x y | None, None => True | _, _ => False end.
Definition reads_ex (e : exemplar T) (p : pexemplar) : Prop :=
  attrs_back (px_attrs p) = Some (x_attrs e) /\ px_time p = x_time e /\ as_num (x_value e) (px_value p) /\ px_span p = x_span e /\ px_trace p = x_trace e.
Definition reads_np (start time : Z) (e : npoint T) (p : pnpoint) : Prop :=
  attrs_back (pn_attrs p) = Some (n_attrs e) /\ pn_start p = start /\ pn_time p = time /\ as_num (n_value e) (pn_value p) /\ Forall2 reads_ex (n_ex e) (pn_ex p).
Definition reads_hp (start time : Z) (e : hpoint T) (p : phpoint) : Prop :=
  attrs_back (ph_attrs p) = Some (h_attrs e) /\ ph_start p = start /\ ph_time p = time /\ ph_count p = h_count e /\ as_flt (h_sum e) (ph_sum p) /\
  ph_buckets p = h_buckets e /\ ph_bounds p = h_bounds e /\ Forall2 reads_ex (h_ex e) (ph_ex p) /\ opt_rel as_flt (h_min e) (ph_min p) /\ opt_rel as_flt (h_max e) (ph_max p).
Definition reads_ep (start time : Z) (e : epoint T) (p : pepoint) : Prop :=
  attrs_back (pp_attrs p) = Some (e_attrs e) /\ pp_start p = start /\ pp_time p = time /\ pp_count p = e_count e /\ as_flt (e_sum e) (pp_sum p) /\
  pp_scale p = e_scale e /\ pp_zero p = e_zero e /\ pp_pos p = e_pos e /\ pp_neg p = e_neg e /\ Forall2 reads_ex (e_ex e) (pp_ex p) /\
  opt_rel as_flt (e_min e) (pp_min p) /\ opt_rel as_flt (e_max e) (pp_max p) /\ pp_threshold p = e_threshold e.
Definition otlp_temporality (t : temporality) (z : Z) : Prop := match t with Delta => z = 1 | _ => z = 2 end.
Definition reads_data (d : mdata T) (p : pdata) : Prop :=
  match d, p with
  | MGauge ps start time, PGauge qs => Forall2 (reads_np (match start with Some s => s | None => 0 end) time) ps qs
  | MSum ps start time t mono, PSum qs z m => Forall2 (reads_np start time) ps qs /\ otlp_temporality t z /\ m = mono
  | MHist ps start time t, PHist qs z => Forall2 (reads_hp start time) ps qs /\ otlp_temporality t z
  | MExpo ps start time t, PExpo qs z => Forall2 (reads_ep start time) ps qs /\ otlp_temporality t z
  | _, _ => False
  end.
(** The measurements in some data satisfy [N] as points and [F] as floats, its attributes
    are typed and its times representable. *)
Context (N F : T -> Prop).
Definition opt_all {A} (P : A -> Prop) (o : option A) : Prop := match o with Some a => P a | None => True end.
Definition ex_ok (e : exemplar T) : Prop := typed_attrs (x_attrs e) /\ in_time (x_time e) /\ N (x_value e).
Definition np_ok (e : npoint T) : Prop := typed_attrs (n_attrs e) /\ N (n_value e) /\ Forall ex_ok (n_ex e).
Definition hp_ok (e : hpoint T) : Prop := typed_attrs (h_attrs e) /\ F (h_sum e) /\ opt_all F (h_min e) /\ opt_all F (h_max e) /\ Forall ex_ok (h_ex e).
Definition ep_ok (e : epoint T) : Prop := typed_attrs (e_attrs e) /\ F (e_sum e) /\ opt_all F (e_min e) /\ opt_all F (e_max e) /\ Forall ex_ok (e_ex e).
Definition data_ok (d : mdata T) : Prop :=
  match d with
  | MGauge ps start time => Forall np_ok ps /\ opt_all in_time start /\ in_time time
  | MSum ps start time _ _ => Forall np_ok ps /\ in_time start /\ in_time time
  | MHist ps start time _ => Forall hp_ok ps /\ in_time start /\ in_time time
  | MExpo ps start time _ => Forall ep_ok ps /\ in_time start /\ in_time time
  end.
Context (num : T -> pnum) (flt : T -> f64) (Hnum : forall x, N x -> as_num x (num x)) (Hflt : forall x, F x -> as_flt x (flt x)).
Lemma forall2_map : forall A B (P : A -> Prop) (R : A -> B -> Prop) (f : A -> B) l, (forall x, P x -> R x (f x)) -> Forall P l -> Forall2 R l (map f l).
Proof. intros A B P R f l H Hl. induction Hl; cbn [map]; constructor; auto. Qed.
Lemma ex_reads : forall l, Forall ex_ok l -> Forall2 reads_ex l (map (exemplar_msg num) l).
Proof using Hnum. intros l. apply forall2_map. intros e (H1 & H2 & H3). unfold reads_ex. cbn. repeat split; [apply attrs_roundtrip; exact H1|apply nanos_id; exact H2|auto]. Qed.
Lemma opt_reads : forall o, opt_all F o -> opt_rel as_flt o (option_map flt o).
Proof using Hflt. intros [x|]; cbn; auto. Qed.
Lemma data_reads : forall d, data_ok d -> reads_data d (data_msg num flt d).
Proof using Hnum Hflt.
  intros [ps start time|ps start time t m|ps start time t|ps start time t] (Hp & Hs & Ht); cbn [data_msg reads_data].
  - eapply forall2_map; [|exact Hp]. intros e (H1 & H2 & H3). unfold reads_np. cbn. split; [apply attrs_roundtrip; exact H1|]. split; [destruct start; cbn; [apply nanos_id; exact Hs|reflexivity]|].
    split; [apply nanos_id; exact Ht|]. split; [auto|apply ex_reads; exact H3].
  - split; [|split; [destruct t; reflexivity|reflexivity]]. eapply forall2_map; [|exact Hp]. intros e (H1 & H2 & H3). unfold reads_np. cbn. split; [apply attrs_roundtrip; exact H1|].
    split; [apply nanos_id; exact Hs|]. split; [apply nanos_id; exact Ht|]. split; [auto|apply ex_reads; exact H3].
  - split; [|destruct t; reflexivity]. eapply forall2_map; [|exact Hp]. intros e (H1 & H2 & H3 & H4 & H5). unfold reads_hp. cbn.
    repeat split; try reflexivity; try (apply nanos_id; assumption); try (apply opt_reads; assumption); [apply attrs_roundtrip; exact H1|auto|apply ex_reads; exact H5].
  - split; [|destruct t; reflexivity]. eapply forall2_map; [|exact Hp]. intros e (H1 & H2 & H3 & H4 & H5). unfold reads_ep. cbn.
    repeat split; try reflexivity; try (apply nanos_id; assumption); try (apply opt_reads; assumption); [apply attrs_roundtrip; exact H1|auto|apply ex_reads; exact H5].
Qed.
End metrics.

Definition int_num (x : Z) (p : pnum) : Prop := p = AsInt x.
(** A u64 that an i64 cannot hold becomes 0 (see C118). *)
Definition u64_num (x : Z) (p : pnum) : Prop := (x < 2 ^ 63 -> p = AsInt x) /\ (2 ^ 63 <= x -> p = AsInt 0).
Definition small (x : Z) : Prop := Z.abs x <= 2 ^ 53.
Definition any_num {A} (_ : A) : Prop := True.
(** Floats are kept as they are; i64 values too, and u64 values below 2^63; the floats
    that carry the sum, minimum and maximum of an integer histogram are exact up to
    2^53. *)
Theorem C62_metrics : forall m,
  pm_name (metric_msg m) = me_name m /\ pm_desc (metric_msg m) = me_desc m /\ pm_unit (metric_msg m) = me_unit m /\
  match me_data m with
  | DF64 d => data_ok any_num any_num d -> reads_data (fun x p => p = AsDouble x) (fun x f => f = x) d (pm_data (metric_msg m))
  | DU64 d => data_ok (fun x => 0 <= x < 2 ^ 64) small d -> reads_data u64_num (fun x f => holds f x) d (pm_data (metric_msg m))
  | DI64 d => data_ok any_num small d -> reads_data int_num (fun x f => holds f x) d (pm_data (metric_msg m))
  end.
Proof.
  intros [n de u d]. unfold metric_msg. cbn [me_name me_desc me_unit me_data pm_name pm_desc pm_unit pm_data]. repeat (split; [reflexivity|]).
  destruct d as [d|d|d]; cbn [amdata_msg]; intros H.
  - eapply data_reads; [| |exact H]; reflexivity.
  - eapply data_reads; [| |exact H]; cbn.
    + intros x Hx. unfold u64_num, num_of_u64. destruct (Z.ltb_spec x (2 ^ 63)); split; intros; try reflexivity; lia.
    + intros x Hx. apply holds_of_Z. exact Hx.
  - eapply data_reads; [| |exact H]; cbn; [reflexivity|]. intros x Hx. apply holds_of_Z. exact Hx.
Qed.
Print Assumptions C62_metrics.
(** Two integers whose floats are read alike are the same integer. *)
Theorem C62_floats_identify : forall f a b, holds f a -> holds f b -> a = b.
Proof. intros f a b [_ H1] [_ H2]. rewrite H1 in H2. now apply eq_IZR. Qed.
Print Assumptions C62_floats_identify.

Example C62_metrics_nonvacuous :
  let d := MSum [mk_np [([107%N], VString [118%N])] 42 []] 5 9 Delta true in
  data_ok (fun x => 0 <= x < 2 ^ 64) small d /\
  amdata_msg (DU64 d) = PSum [mk_pnp [([107%N], PString [118%N])] 5 9 [] (AsInt 42)] 1 true.
Proof.
  cbn zeta. split; [|reflexivity]. unfold data_ok, np_ok, in_time, typed_attrs. cbn. split; [|lia]. constructor; [|constructor]. cbn. repeat split; try lia; repeat constructor.
Qed.
