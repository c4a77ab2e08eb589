(** How a receiver reads OTLP: the Protocol Buffers wire format
    (protobuf.dev/programming-guides/encoding) and the field numbers and types of
    the published OTLP definitions (opentelemetry/proto/{common,resource,trace,
    logs,metrics}/v1 and collector/*/v1).  Nothing here refers to the encoder.
    Reading is strict: it fails on unknown fields, on a single field given twice,
    and on wrong wire types, where a receiver could skip or merge; where it
    succeeds every receiver reads the same. *)
From Coq Require Import List NArith ZArith Bool.
From Verif Require Import Str F64 OtlpModel ProtoModel.
Import ListNotations.
Local Open Scope N_scope.

(** ** The wire format *)
Fixpoint read_varint (bs : list N) : option (N * list N) :=
  match bs with
  | [] => None
  | b :: r => if b <? 128 then Some (b, r)
              else match read_varint r with Some (n, r) => Some ((b - 128) + 128 * n, r) | None => None end
  end.
Fixpoint read_le (k : nat) (bs : list N) : option (N * list N) :=
  match k, bs with
  | O, _ => Some (0, bs)
  | S k, b :: r => match read_le k r with Some (n, r) => Some (b + 256 * n, r) | None => None end
  | S _, [] => None
  end.
Definition read_payload (wt : N) (bs : list N) : option (payload * list N) :=
  match wt with
  | 0 => match read_varint bs with Some (n, r) => Some (Varint n, r) | None => None end
  | 1 => match read_le 8 bs with Some (n, r) => Some (I64 n, r) | None => None end
  | 2 => match read_varint bs with
         | Some (n, r) => if (N.to_nat n <=? length r)%nat then Some (Len (firstn (N.to_nat n) r), skipn (N.to_nat n) r) else None
         | None => None
         end
  | 5 => match read_le 4 bs with Some (n, r) => Some (I32 n, r) | None => None end
  | _ => None
  end.
(** Key, value, key, value...  [fuel]: at most so many fields. *)
Fixpoint parse (fuel : nat) (bs : list N) : option (list (N * payload)) :=
  match bs, fuel with
  | [], _ => Some []
  | _, O => None
  | _, S fuel =>
    match read_varint bs with
    | None => None
    | Some (k, r) =>
      match read_payload (k mod 8) r with
      | None => None
      | Some (p, r) => option_map (cons (k / 8, p)) (parse fuel r)
      end
    end
  end.

(** All values with a field number. *)
Definition vals (fs : list (N * payload)) (t : N) : list payload := map snd (filter (fun f => fst f =? t) fs).
(** A message with these field numbers, read by [f]. *)
Definition read_message {T} (known : list N) (f : (N -> list payload) -> option T) (bs : list N) : option T :=
  match parse (length bs) bs with
  | Some fs => if forallb (fun x => existsb (N.eqb (fst x)) known) fs then f (vals fs) else None
  | None => None
  end.

(** ** Field types, with their defaults *)
Definition r_str (ps : list payload) : option str := match ps with [] => Some [] | [Len b] => utf8_decode b | _ => None end.
Definition r_bytes (ps : list payload) : option (list N) := match ps with [] => Some [] | [Len b] => Some b | _ => None end.
Definition r_uint32 (ps : list payload) : option N :=
  match ps with [] => Some 0 | [Varint n] => if n <? 2 ^ 32 then Some n else None | _ => None end.
Definition r_fixed32 (ps : list payload) : option N := match ps with [] => Some 0 | [I32 n] => Some n | _ => None end.
Definition r_fixed64 (ps : list payload) : option N := match ps with [] => Some 0 | [I64 n] => Some n | _ => None end.
Definition r_time (ps : list payload) : option Z := option_map Z.of_N (r_fixed64 ps).
(** The 64 bits of a signed number. *)
Definition signed (n : N) : Z := if n <? 2 ^ 63 then Z.of_N n else Z.of_N n - 2 ^ 64.
Definition r_enum (ps : list payload) : option Z := match ps with [] => Some 0%Z | [Varint n] => Some (signed n) | _ => None end.
Definition r_bool (ps : list payload) : option bool := match ps with [] => Some false | [Varint n] => Some (negb (n =? 0)) | _ => None end.
Definition float (n : N) : f64 := f64_from_bits (Z.of_N n).
Definition r_double (ps : list payload) : option f64 := match ps with [] => Some (f64_of_Z 0) | [I64 n] => Some (float n) | _ => None end.
Definition r_odouble (ps : list payload) : option (option f64) := match ps with [] => Some None | [I64 n] => Some (Some (float n)) | _ => None end.
(** ZigZag: 0, -1, 1, -2, 2, ... *)
Definition r_sint32 (ps : list payload) : option Z :=
  match ps with
  | [] => Some 0%Z
  | [Varint n] => Some (if N.even n then Z.of_N (n / 2) else - Z.of_N (n / 2) - 1)%Z
  | _ => None
  end.
Definition r_msg {T} (f : list N -> option T) (ps : list payload) : option T := match ps with [Len b] => f b | _ => None end.
Definition r_omsg {T} (f : list N -> option T) (ps : list payload) : option (option T) :=
  match ps with [] => Some None | [Len b] => option_map Some (f b) | _ => None end.
Definition r_msgs {T} (f : list N -> option T) (ps : list payload) : option (list T) :=
  all_some (map (fun p => match p with Len b => f b | _ => None end) ps).
(** Packed numbers, one after the other. *)
Fixpoint unpack {T} (rd : list N -> option (T * list N)) (fuel : nat) (bs : list N) : option (list T) :=
  match bs, fuel with
  | [], _ => Some []
  | _, O => None
  | _, S fuel => match rd bs with Some (x, r) => option_map (cons x) (unpack rd fuel r) | None => None end
  end.
Definition r_packed {T} (rd : list N -> option (T * list N)) (ps : list payload) : option (list T) :=
  match ps with [] => Some [] | [Len b] => unpack rd (length b) b | _ => None end.
Definition rd_double (bs : list N) : option (f64 * list N) :=
  match read_le 8 bs with Some (n, r) => Some (float n, r) | None => None end.

Notation "'let?' x ':=' a 'in' b" := (match a with Some x => b | None => None end) (at level 200, x pattern, right associativity).

(** ** common.proto *)
(** AnyValue: string_value 1, bool_value 2, int_value 3, double_value 4, array_value 5
    (values 1), kvlist_value 6 (values 1: key 1, value 2), bytes_value 7. *)
Fixpoint read_any_aux (fuel : nat) (bs : list N) : option any :=
  match fuel with
  | O => None
  | S fuel =>
    match parse (length bs) bs with
    | Some [(1, Len b)] => option_map PString (utf8_decode b)
    | Some [(2, Varint n)] => Some (PBool (negb (n =? 0)))
    | Some [(3, Varint n)] => Some (PInt (signed n))
    | Some [(4, I64 n)] => Some (PDouble (float n))
    | Some [(5, Len b)] => option_map PArray (read_message [1] (fun get => r_msgs (read_any_aux fuel) (get 1)) b)
    | Some [(6, Len b)] => option_map PKvlist (read_message [1] (fun get => r_msgs
        (read_message [1; 2] (fun get => let? k := r_str (get 1) in let? v := r_msg (read_any_aux fuel) (get 2) in Some (k, v))) (get 1)) b)
    | Some [(7, Len b)] => Some (PBytes b)
    | _ => None
    end
  end.
Definition read_any (bs : list N) : option any := read_any_aux (S (length bs)) bs.
Definition read_kv : list N -> option (str * any) :=
  read_message [1; 2] (fun get => let? k := r_str (get 1) in let? v := r_msg read_any (get 2) in Some (k, v)).
(** InstrumentationScope: name 1, version 2, attributes 3; Resource: attributes 1. *)
Definition read_scope : list N -> option pscope :=
  read_message [1; 2; 3] (fun get =>
    let? n := r_str (get 1) in let? v := r_str (get 2) in let? a := r_msgs read_kv (get 3) in Some (mk_pscope n v a)).
Definition read_resource : list N -> option (list (str * any)) := read_message [1] (fun get => r_msgs read_kv (get 1)).

(** ** trace.proto *)
Definition read_event : list N -> option pevent :=
  read_message [1; 2; 3; 4] (fun get =>
    let? t := r_time (get 1) in let? n := r_str (get 2) in let? a := r_msgs read_kv (get 3) in let? d := r_uint32 (get 4) in
    Some (mk_pevent t n a d)).
Definition read_link : list N -> option plink :=
  read_message [1; 2; 3; 4; 5; 6] (fun get =>
    let? t := r_bytes (get 1) in let? s := r_bytes (get 2) in let? st := r_str (get 3) in let? a := r_msgs read_kv (get 4) in
    let? d := r_uint32 (get 5) in let? f := r_fixed32 (get 6) in Some (mk_plink t s st a d f)).
Definition read_status : list N -> option (str * Z) :=
  read_message [2; 3] (fun get => let? m := r_str (get 2) in let? c := r_enum (get 3) in Some (m, c)).
(** trace_id 1, span_id 2, trace_state 3, parent_span_id 4, name 5, kind 6,
    start_time_unix_nano 7, end_time_unix_nano 8, attributes 9, dropped_attributes_count 10,
    events 11, dropped_events_count 12, links 13, dropped_links_count 14, status 15, flags 16. *)
Definition read_span : list N -> option pspan :=
  read_message [1; 2; 3; 4; 5; 6; 7; 8; 9; 10; 11; 12; 13; 14; 15; 16] (fun get =>
    let? tr := r_bytes (get 1) in let? sp := r_bytes (get 2) in let? st := r_str (get 3) in let? pa := r_bytes (get 4) in
    let? name := r_str (get 5) in let? kind := r_enum (get 6) in let? start := r_time (get 7) in let? stop := r_time (get 8) in
    let? attrs := r_msgs read_kv (get 9) in let? da := r_uint32 (get 10) in
    let? events := r_msgs read_event (get 11) in let? de := r_uint32 (get 12) in
    let? links := r_msgs read_link (get 13) in let? dl := r_uint32 (get 14) in
    let? mc := r_msg read_status (get 15) in let? fl := r_fixed32 (get 16) in
    Some (mk_pspan tr sp st pa fl name kind start stop attrs da events de links dl (snd mc) (fst mc))).

(** Scope...: scope 1, spans / log_records / metrics 2, schema_url 3.  Resource...:
    resource 1, scope_... 2, schema_url 3.  Export...ServiceRequest: resource_... 1. *)
Definition read_scoped {T} (item : list N -> option T) : list N -> option (pscoped T) :=
  read_message [1; 2; 3] (fun get =>
    let? s := r_msg read_scope (get 1) in let? l := r_msgs item (get 2) in let? u := r_str (get 3) in Some (mk_scoped s u l)).
Definition read_resourced {T} (item : list N -> option T) : list N -> option (presource T) :=
  read_message [1; 2; 3] (fun get =>
    let? a := r_msg read_resource (get 1) in let? l := r_msgs (read_scoped item) (get 2) in let? u := r_str (get 3) in
    Some (mk_presource a u l)).
Definition read_request {T} (item : list N -> option T) : list N -> option (list (presource T)) :=
  read_message [1] (fun get => r_msgs (read_resourced item) (get 1)).

(** ** logs.proto *)
(** time_unix_nano 1, severity_number 2, severity_text 3, body 5, attributes 6, flags 8,
    trace_id 9, span_id 10, observed_time_unix_nano 11, event_name 12. *)
Definition read_log : list N -> option plog :=
  read_message [1; 2; 3; 5; 6; 8; 9; 10; 11; 12] (fun get =>
    let? t := r_time (get 1) in let? sev := r_enum (get 2) in let? sevt := r_str (get 3) in let? body := r_omsg read_any (get 5) in
    let? attrs := r_msgs read_kv (get 6) in let? fl := r_fixed32 (get 8) in let? tr := r_bytes (get 9) in let? sp := r_bytes (get 10) in
    let? ob := r_time (get 11) in let? ev := r_str (get 12) in
    Some (mk_plog t ob attrs ev sev sevt body fl sp tr)).

(** ** metrics.proto *)
(** A oneof of a double and an sfixed64. *)
Definition r_num (double int : list payload) : option pnum :=
  match double, int with
  | [I64 n], [] => Some (AsDouble (float n))
  | [], [I64 n] => Some (AsInt (signed n))
  | _, _ => None
  end.
(** Exemplar: time_unix_nano 2, as_double 3, span_id 4, trace_id 5, as_int 6,
    filtered_attributes 7. *)
Definition read_exemplar : list N -> option pexemplar :=
  read_message [2; 3; 4; 5; 6; 7] (fun get =>
    let? t := r_time (get 2) in let? v := r_num (get 3) (get 6) in let? sp := r_bytes (get 4) in let? tr := r_bytes (get 5) in
    let? a := r_msgs read_kv (get 7) in Some (mk_pex a t sp tr v)).
(** NumberDataPoint: start_time_unix_nano 2, time_unix_nano 3, as_double 4, exemplars 5,
    as_int 6, attributes 7. *)
Definition read_npoint : list N -> option pnpoint :=
  read_message [2; 3; 4; 5; 6; 7] (fun get =>
    let? s := r_time (get 2) in let? t := r_time (get 3) in let? v := r_num (get 4) (get 6) in
    let? e := r_msgs read_exemplar (get 5) in let? a := r_msgs read_kv (get 7) in Some (mk_pnp a s t e v)).
(** HistogramDataPoint: start 2, time 3, count 4, sum 5, bucket_counts 6 (fixed64),
    explicit_bounds 7, exemplars 8, attributes 9, min 11, max 12. *)
Definition read_hpoint : list N -> option phpoint :=
  read_message [2; 3; 4; 5; 6; 7; 8; 9; 11; 12] (fun get =>
    let? s := r_time (get 2) in let? t := r_time (get 3) in let? c := r_fixed64 (get 4) in let? sum := r_odouble (get 5) in let? sum := sum in
    let? bk := r_packed (read_le 8) (get 6) in let? bd := r_packed rd_double (get 7) in
    let? e := r_msgs read_exemplar (get 8) in let? a := r_msgs read_kv (get 9) in
    let? mn := r_odouble (get 11) in let? mx := r_odouble (get 12) in Some (mk_php a s t c sum bk bd e mn mx)).
(** Buckets: offset 1 (sint32), bucket_counts 2 (uint64). *)
Definition read_buckets : list N -> option (Z * list N) :=
  read_message [1; 2] (fun get => let? o := r_sint32 (get 1) in let? b := r_packed read_varint (get 2) in Some (o, b)).
(** ExponentialHistogramDataPoint: attributes 1, start 2, time 3, count 4, sum 5, scale 6,
    zero_count 7, positive 8, negative 9, exemplars 11, min 12, max 13, zero_threshold 14. *)
Definition read_epoint : list N -> option pepoint :=
  read_message [1; 2; 3; 4; 5; 6; 7; 8; 9; 11; 12; 13; 14] (fun get =>
    let? a := r_msgs read_kv (get 1) in let? s := r_time (get 2) in let? t := r_time (get 3) in let? c := r_fixed64 (get 4) in
    let? sum := r_odouble (get 5) in let? sum := sum in let? sc := r_sint32 (get 6) in let? z := r_fixed64 (get 7) in
    let? p := r_msg read_buckets (get 8) in let? n := r_msg read_buckets (get 9) in let? e := r_msgs read_exemplar (get 11) in
    let? mn := r_odouble (get 12) in let? mx := r_odouble (get 13) in let? th := r_double (get 14) in
    Some (mk_pep a s t c sum sc z p n e mn mx th)).
(** Metric: name 1, description 2, unit 3, gauge 5, sum 7, histogram 9,
    exponential_histogram 10; each with data_points 1, aggregation_temporality 2,
    is_monotonic 3. *)
Definition r_data (g s h e : list payload) : option pdata :=
  match g, s, h, e with
  | [Len b], [], [], [] => read_message [1] (fun get => option_map PGauge (r_msgs read_npoint (get 1))) b
  | [], [Len b], [], [] => read_message [1; 2; 3] (fun get =>
      let? ps := r_msgs read_npoint (get 1) in let? t := r_enum (get 2) in let? m := r_bool (get 3) in Some (PSum ps t m)) b
  | [], [], [Len b], [] => read_message [1; 2] (fun get =>
      let? ps := r_msgs read_hpoint (get 1) in let? t := r_enum (get 2) in Some (PHist ps t)) b
  | [], [], [], [Len b] => read_message [1; 2] (fun get =>
      let? ps := r_msgs read_epoint (get 1) in let? t := r_enum (get 2) in Some (PExpo ps t)) b
  | _, _, _, _ => None
  end.
Definition read_metric : list N -> option pmetric :=
  read_message [1; 2; 3; 5; 7; 9; 10] (fun get =>
    let? n := r_str (get 1) in let? d := r_str (get 2) in let? u := r_str (get 3) in
    let? x := r_data (get 5) (get 7) (get 9) (get 10) in Some (mk_pmetric n d u x)).

(** ** What a message made of Rust values satisfies: strings of Unicode scalar values,
    numbers within their types. *)
Fixpoint any_in_range (v : any) : Prop :=
  match v with
  | PString s => wf_str s = true
  | PInt z => (- 2 ^ 63 <= z < 2 ^ 63)%Z
  | PArray l => (fix all (l : list any) := match l with [] => True | v :: l => any_in_range v /\ all l end) l
  | PKvlist l => (fix all (l : list (str * any)) := match l with [] => True | (k, v) :: l => (wf_str k = true /\ any_in_range v) /\ all l end) l
  | _ => True
  end.
Definition kvs_in_range (l : list (str * any)) : Prop := Forall (fun kv => wf_str (fst kv) = true /\ any_in_range (snd kv)) l.
Definition u32 (n : N) : Prop := n < 2 ^ 32.
Definition u64 (n : N) : Prop := n < 2 ^ 64.
Definition time (z : Z) : Prop := (0 <= z < 2 ^ 64)%Z.
Definition i32 (z : Z) : Prop := (- 2 ^ 31 <= z < 2 ^ 31)%Z.
Definition i64 (z : Z) : Prop := (- 2 ^ 63 <= z < 2 ^ 63)%Z.
Definition text (s : str) : Prop := wf_str s = true.

Definition event_in_range (e : pevent) : Prop := time (pe_time e) /\ text (pe_name e) /\ kvs_in_range (pe_attrs e) /\ u32 (pe_dropped e).
Definition link_in_range (l : plink) : Prop := text (pl_state l) /\ kvs_in_range (pl_attrs l) /\ u32 (pl_dropped l) /\ u32 (pl_flags l).
Definition span_in_range (s : pspan) : Prop :=
  text (p_state s) /\ u32 (p_flags s) /\ text (p_name s) /\ i32 (p_kind s) /\ time (p_start s) /\ time (p_end s) /\
  kvs_in_range (p_attrs s) /\ u32 (p_attrs_dropped s) /\ Forall event_in_range (p_events s) /\ u32 (p_events_dropped s) /\
  Forall link_in_range (p_links s) /\ u32 (p_links_dropped s) /\ i32 (p_code s) /\ text (p_message s).
Definition log_in_range (l : plog) : Prop :=
  time (q_time l) /\ time (q_observed l) /\ kvs_in_range (q_attrs l) /\ text (q_event l) /\ i32 (q_sev l) /\ text (q_sevtext l) /\
  match q_body l with Some b => any_in_range b | None => True end /\ u32 (q_flags l).
Definition num_in_range (n : pnum) : Prop := match n with AsInt z => i64 z | AsDouble _ => True end.
Definition exemplar_in_range (e : pexemplar) : Prop := kvs_in_range (px_attrs e) /\ time (px_time e) /\ num_in_range (px_value e).
Definition npoint_in_range (p : pnpoint) : Prop :=
  kvs_in_range (pn_attrs p) /\ time (pn_start p) /\ time (pn_time p) /\ Forall exemplar_in_range (pn_ex p) /\ num_in_range (pn_value p).
Definition hpoint_in_range (p : phpoint) : Prop :=
  kvs_in_range (ph_attrs p) /\ time (ph_start p) /\ time (ph_time p) /\ u64 (ph_count p) /\ Forall u64 (ph_buckets p) /\
  Forall exemplar_in_range (ph_ex p).
(** The zero threshold is not -0.0 (see [w_double]). *)
Definition epoint_in_range (p : pepoint) : Prop :=
  kvs_in_range (pp_attrs p) /\ time (pp_start p) /\ time (pp_time p) /\ u64 (pp_count p) /\ i32 (pp_scale p) /\ u64 (pp_zero p) /\
  i32 (fst (pp_pos p)) /\ Forall u64 (snd (pp_pos p)) /\ i32 (fst (pp_neg p)) /\ Forall u64 (snd (pp_neg p)) /\
  Forall exemplar_in_range (pp_ex p) /\ (f64_eqb (pp_threshold p) (f64_of_Z 0) = true -> pp_threshold p = f64_of_Z 0).
Definition data_in_range (d : pdata) : Prop :=
  match d with
  | PGauge ps => Forall npoint_in_range ps
  | PSum ps t _ => Forall npoint_in_range ps /\ i32 t
  | PHist ps t => Forall hpoint_in_range ps /\ i32 t
  | PExpo ps t => Forall epoint_in_range ps /\ i32 t
  end.
Definition metric_in_range (m : pmetric) : Prop := text (pm_name m) /\ text (pm_desc m) /\ text (pm_unit m) /\ data_in_range (pm_data m).
Definition scope_in_range (s : pscope) : Prop := text (ps_name s) /\ text (ps_version s) /\ kvs_in_range (ps_attrs s).
Definition resourced_in_range {T} (item : T -> Prop) (r : presource T) : Prop :=
  kvs_in_range (r_rattrs r) /\ text (r_rurl r) /\
  Forall (fun g => scope_in_range (g_scope g) /\ text (g_url g) /\ Forall item (g_items g)) (r_groups r).
