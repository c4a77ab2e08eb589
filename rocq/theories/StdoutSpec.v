(** Reading what the stdout exporters print. *)
From Coq Require Import String List NArith ZArith Bool.
From Verif Require Import Str F64 TraceModel SpanModel LogModel AttrModel KvModel OtlpModel StdoutModel.
Import ListNotations.
Local Open Scope string_scope.

Definition reader (X : Type) : Type := list line -> option (X * list line).
Definition bind {X Y} (p : reader X) (f : X -> reader Y) : reader Y := fun ls => match p ls with Some (x, r) => f x r | None => None end.
Definition ret {X} (x : X) : reader X := fun ls => Some (x, ls).
Notation "x <- p ; q" := (bind p (fun x => q)) (at level 80, p at level 79, right associativity).
Definition label (ls : list line) : option string := match ls with (t, _) :: _ => Some t | [] => None end.
Definition at_label (t : string) (ls : list line) : bool := match label ls with Some t' => String.eqb t t' | None => false end.
(** A line with the text [t]. *)
Definition field {X} (t : string) (f : list arg -> option X) : reader X := fun ls =>
  match ls with
  | (t', a) :: r => if String.eqb t t' then option_map (fun x => (x, r)) (f a) else None
  | [] => None
  end.
Definition optional {X} (t : string) (f : list arg -> option X) : reader (option X) := fun ls =>
  if at_label t ls then option_map (fun '(x, r) => (Some x, r)) (field t f ls) else Some (None, ls).
(** As many lines with the text [t] as there are. *)
Fixpoint lines {X} (t : string) (f : list arg -> option X) (ls : list line) : option (list X * list line) :=
  match ls with
  | (t', a) :: r =>
      if String.eqb t t' then match f a, lines t f r with Some x, Some (xs, r') => Some (x :: xs, r') | _, _ => None end
      else Some ([], ls)
  | [] => Some ([], [])
  end.
(** As many items, each starting with the text [t] and numbered from [i]. *)
Fixpoint items {X} (fuel : nat) (t : string) (p : nat -> reader X) (i : nat) (ls : list line) : option (list X * list line) :=
  match fuel with
  | 0 => if at_label t ls then None else Some ([], ls)
  | S fuel =>
      if at_label t ls then
        match p i ls with
        | Some (x, r) => match items fuel t p (S i) r with Some (xs, r') => Some (x :: xs, r') | None => None end
        | None => None
        end
      else Some ([], ls)
  end.
Definition all_items {X} (t : string) (p : nat -> reader X) : reader (list X) := fun ls => items (List.length ls) t p 0 ls.
(** A heading followed by what [p] reads, or nothing. *)
Definition section {X} (heading : string) (p : reader (list X)) : reader (list X) := fun ls =>
  if at_label heading ls then bind (field heading (fun a => match a with [] => Some tt | _ => None end)) (fun _ => p) ls else Some ([], ls).

Definition none (a : list arg) : option unit := match a with [] => Some tt | _ => None end.
Definition text (a : list arg) : option str := match a with [AText s] => Some s | _ => None end.
Definition id_ (a : list arg) : option N := match a with [AId n] => Some n | _ => None end.
Definition flags (a : list arg) : option N := match a with [AFlags n] => Some n | _ => None end.
Definition kind_ (a : list arg) : option N := match a with [AKind n] => Some n | _ => None end.
Definition time (a : list arg) : option Z := match a with [AMicros t] => Some t | _ => None end.
Definition status_ (a : list arg) : option status := match a with [AStatus s] => Some s | _ => None end.
Definition attr_ (a : list arg) : option attr := match a with [AAttr x] => Some x | _ => None end.
Definition count (a : list arg) : option N := match a with [ACount n] => Some n | _ => None end.
Definition index (i : nat) (a : list arg) : option unit := match a with [AIndex j] => if Nat.eqb i j then Some tt else None | _ => None end.
Definition flag (a : list arg) : option bool := match a with [AFlag b] => Some b | _ => None end.

Definition read_scope : reader scope :=
  n <- field "		Name         : {}" text; v <- optional "		Version  : {}" text; u <- optional "		SchemaUrl: {}" text;
  a <- section "		Scope Attributes:" (lines "			 ->  {}: {}" attr_); ret (mk_scope n v u a).
Definition read_attrs : reader (list attr) := section "	Attributes:" (lines "		 ->  {}: {:?}" attr_).

(** ** Spans *)
Record vspan := mk_vspan {
  v_scope : scope; v_name : str; v_trace : N; v_span : N; v_flags : N; v_parent : N; v_kind : N; v_start : Z; v_end : Z; v_status : status;
  v_attrs : list attr; v_events : list (str * Z * list attr); v_links : list (N * N * list attr) }.
Definition read_event (i : nat) : reader (str * Z * list attr) :=
  _ <- field "	Event #{}" (index i); n <- field "	Name      : {}" text; t <- field "	Timestamp : {}" time; a <- read_attrs; ret (n, t, a).
Definition read_link (i : nat) : reader (N * N * list attr) :=
  _ <- field "	Link #{}" (index i); t <- field "	TraceId: {}" id_; s <- field "	SpanId : {}" id_; a <- read_attrs; ret (t, s, a).
Definition read_span (i : nat) : reader vspan :=
  _ <- field "Span #{}" (index i); _ <- field "	Instrumentation Scope" none; sc <- read_scope; _ <- field "" none;
  n <- field "	Name        : {}" text; t <- field "	TraceId     : {}" id_; s <- field "	SpanId      : {}" id_; f <- field "	TraceFlags  : {:?}" flags;
  p <- field "	ParentSpanId: {}" id_; k <- field "	Kind        : {:?}" kind_; b <- field "	Start time: {}" time; e <- field "	End time: {}" time;
  st <- field "	Status: {:?}" status_; a <- read_attrs; ev <- section "	Events:" (all_items "	Event #{}" read_event);
  ln <- section "	Links:" (all_items "	Link #{}" read_link); ret (mk_vspan sc n t s f p k b e st a ev ln).
Definition read_spans : reader (list vspan) := all_items "Span #{}" read_span.
(** What of a span can be read: all but the trace state, the remote flag, the counts of
    what was dropped, the flags of links, and fractions of a microsecond. *)
Definition seen_span (s : sdata) : vspan :=
  let c := d_ctx s in let d := d_data s in
  mk_vspan (d_scope s) (sd_name d) (sc_trace c) (sc_span c) (sc_flags c) (sd_parent d) (sd_kind d) (sd_start d / 1000)%Z (sd_end d / 1000)%Z (sd_status d) (sd_attrs d)
    (map (fun e => (ev_name e, (ev_time e / 1000)%Z, ev_attrs e)) (sd_events d)) (map (fun l => (sc_trace (ln_sc l), sc_span (ln_sc l), ln_attrs l)) (sd_links d)).

(** ** Log records *)
Record vlog := mk_vlog {
  w_scope : scope; w_event : option str; w_target : option str; w_trace : option (N * N * option N); w_time : option Z; w_observed : option Z;
  w_sevtext : option str; w_sev : option N; w_body : option lany; w_attrs : list (str * lany) }.
Definition scope_ (a : list arg) : option scope := match a with [AScope s] => Some s | _ => None end.
Definition body (a : list arg) : option lany := match a with [ABody b] => Some b | _ => None end.
Definition log_attr (a : list arg) : option (str * lany) := match a with [ALogAttr x] => Some x | _ => None end.
Definition read_trace : reader (option (N * N * option N)) := fun ls =>
  if at_label "	 TraceId: {:?}" ls then
    (t <- field "	 TraceId: {:?}" id_; s <- field "	 SpanId: {:?}" id_; f <- optional "	 TraceFlags: {:?}" flags; ret (Some (t, s, f))) ls
  else Some (None, ls).
Definition read_log (i : nat) : reader vlog :=
  _ <- field "Log #{}" (index i); sc <- field "	 Instrumentation Scope: {:?}" scope_; e <- optional "	 EventName: {:?}" text;
  tg <- optional "	 Target (Scope): {:?}" text; tr <- read_trace; t <- optional "	 Timestamp: {}" time; o <- optional "	 Observed Timestamp: {}" time;
  st <- optional "	 SeverityText: {:?}" text; sn <- optional "	 SeverityNumber: {:?}" count; b <- optional "	 Body: {:?}" body;
  _ <- field "	 Attributes:" none; a <- lines "		 ->  {}: {:?}" log_attr; ret (mk_vlog sc e tg tr t o st sn b a).
Definition read_logs : reader (list vlog) := all_items "Log #{}" read_log.
Definition seen_log (x : lrec * scope) : vlog :=
  let r := fst x in
  mk_vlog (snd x) (lr_event r) (lr_target r) (option_map (fun t => (tc_trace t, tc_span t, tc_flags t)) (lr_trace r)) (option_map (fun t => t / 1000)%Z (lr_time r))
    (option_map (fun t => t / 1000)%Z (lr_observed r)) (lr_sevtext r) (lr_sev r) (lr_body r) (attributes r).

(** ** Metrics *)
Section number.
Context {T : Type} (num : list arg -> option T).
Inductive vdata :=
| VGauge (points : list (T * list attr)) (start : option Z) (end_ : Z)
| VSum (points : list (T * list attr)) (start end_ : Z) (cumulative monotonic : bool)
| VHist (points : list (N * T * option T * option T * list attr * list (option f64 * option f64 * N))) (start end_ : Z) (cumulative : bool)
| VExpo.
Definition read_npoint (i : nat) : reader (T * list attr) :=
  _ <- field "		DataPoint #{}" (index i); v <- field "			Value        : {:#?}" num; _ <- field "			Attributes   :" none;
  a <- lines "				 ->  {}: {}" attr_; ret (v, a).
(** A bucket: its bounds, if finite, and its count. *)
Definition lower (a : arg) : option (option f64) := match a with AFloat f => Some (Some f) | AText _ => Some None | _ => None end.
Definition range (a : list arg) : option (option f64 * option f64 * N) :=
  match a with
  | [l; AFloat u; ACount n] => option_map (fun l => (l, Some u, n)) (lower l)
  | _ => None
  end.
Definition last_range (a : list arg) : option (option f64 * option f64 * N) :=
  match a with
  | [l; ACount n] => option_map (fun l => (l, None, n)) (lower l)
  | _ => None
  end.
Definition read_hpoint (i : nat) : reader (N * T * option T * option T * list attr * list (option f64 * option f64 * N)) :=
  _ <- field "		DataPoint #{}" (index i); c <- field "			Count        : {}" count; s <- field "			Sum          : {:?}" num;
  mi <- optional "			Min          : {:?}" num; ma <- optional "			Max          : {:?}" num; _ <- field "			Attributes   :" none;
  a <- lines "				 ->  {}: {}" attr_; _ <- field "			Buckets" none; b <- lines "				 {} to {} : {}" range;
  z <- field "				{} to +Infinity : {}" last_range; ret (c, s, mi, ma, a, (b ++ [z])%list).
Definition read_temporality : reader bool := fun ls =>
  if at_label "		Temporality  : Cumulative" ls then (_ <- field "		Temporality  : Cumulative" none; ret true) ls
  else (_ <- field "		Temporality  : Delta" none; ret false) ls.
Definition read_info : reader vdata := fun ls =>
  if at_label "		Type         : Gauge" ls then
    (_ <- field "		Type         : Gauge" none; _ <- field "		Gauge DataPoints" none; s <- optional "		StartTime    : {}" time; e <- field "		EndTime      : {}" time;
     ps <- all_items "		DataPoint #{}" read_npoint; ret (VGauge ps s e)) ls
  else if at_label "		Type         : Sum" ls then
    (_ <- field "		Type         : Sum" none; _ <- field "		Sum DataPoints" none; m <- field "		Monotonic    : {}" flag; c <- read_temporality;
     s <- field "		StartTime    : {}" time; e <- field "		EndTime      : {}" time; ps <- all_items "		DataPoint #{}" read_npoint; ret (VSum ps s e c m)) ls
  else if at_label "		Type         : Histogram" ls then
    (_ <- field "		Type         : Histogram" none; c <- read_temporality; s <- field "		StartTime    : {}" time; e <- field "		EndTime      : {}" time;
     _ <- field "		Histogram DataPoints" none; ps <- all_items "		DataPoint #{}" read_hpoint; ret (VHist ps s e c)) ls
  else (_ <- field "		Type         : Exponential Histogram" none; ret VExpo) ls.
End number.
Arguments vdata : clear implicits.
(** A number as printed does not tell u64 from i64. *)
Inductive vnum := VInt (z : Z) | VFloat (f : f64).
Definition number (a : list arg) : option vnum := match a with [AInt z] => Some (VInt z) | [AFloat f] => Some (VFloat f) | _ => None end.
Definition read_metric (i : nat) : reader (str * str * str * vdata vnum) :=
  _ <- field "Metric #{}" (index i); n <- field "		Name         : {}" text; d <- field "		Description  : {}" text; u <- field "		Unit         : {}" text;
  x <- read_info number; ret (n, d, u, x).
Definition read_scope_metrics (i : nat) : reader (scope * list (str * str * str * vdata vnum)) :=
  _ <- field "	Instrumentation Scope #{}" (index i); sc <- read_scope; ms <- all_items "Metric #{}" read_metric; ret (sc, ms).
Definition read_metrics : reader (list (scope * list (str * str * str * vdata vnum))) := all_items "	Instrumentation Scope #{}" read_scope_metrics.
(** The buckets of a histogram: between each boundary and the next. *)
Definition seen_buckets (bounds : list f64) (counts : list N) : list (option f64 * option f64 * N) :=
  map (fun k => (match k with 0 => None | S k => nth_error bounds k end, nth_error bounds k, nth k counts 0%N)) (seq 0 (S (List.length bounds))).
Definition cumulative (t : temporality) : bool := match t with Cumulative => true | _ => false end.
Definition seen_data {T} (num : T -> vnum) (d : mdata T) : vdata vnum :=
  match d with
  | MGauge ps s e => VGauge (map (fun p => (num (n_value p), n_attrs p)) ps) (option_map (fun t => t / 1000)%Z s) (e / 1000)
  | MSum ps s e t m => VSum (map (fun p => (num (n_value p), n_attrs p)) ps) (s / 1000) (e / 1000) (cumulative t) m
  | MHist ps s e t => VHist (map (fun p => (h_count p, num (h_sum p), option_map num (h_min p), option_map num (h_max p), h_attrs p, seen_buckets (h_bounds p) (h_buckets p))) ps)
                        (s / 1000) (e / 1000) (cumulative t)
  | MExpo _ _ _ _ => VExpo
  end.
Definition seen_metric (m : metric) : str * str * str * vdata vnum :=
  (me_name m, me_desc m, me_unit m, match me_data m with DF64 d => seen_data VFloat d | DU64 d => seen_data VInt d | DI64 d => seen_data VInt d end).

(** ** The resource *)
Definition read_resource : reader resource :=
  _ <- field "Resource" none; u <- optional "	Resource SchemaUrl: {:?}" text; a <- lines "	 ->  {}={:?}" attr_; ret (mk_resource a u).
