(** The Prometheus exporter: opentelemetry-prometheus/src/utils.rs, lib.rs. *)
From Coq Require Import String List NArith ZArith Bool.
From Verif Require Import Str F64 AttrModel InstrModel KvModel OtlpModel.
Import ListNotations.
Local Open Scope N_scope.

(** ** Names *)
Section names.
(** [char::is_alphanumeric], the Unicode predicate. *)
Context (alnum : char -> bool).
(** The replacement of utils.rs:122-128. *)
Definition rep_name (c : char) : char := if is_alnum c || (c =? 95) || (c =? 58) then c else 95.
(** The characters the search of utils.rs:106-115 stops at. *)
Definition stops (c : char) : bool := negb (alnum c) && negb (c =? 95) && negb (c =? 58).
Fixpoint scan (s : str) : str := match s with [] => [] | c :: r => if stops c then map rep_name s else c :: scan r end.
(** sanitize_name (utils.rs:101-134). *)
Definition sanitize_name (s : str) : str :=
  match s with
  | c :: _ => if is_digit c then 95 :: map rep_name s else scan s
  | [] => []
  end.
End names.

(** sanitize_prom_kv (utils.rs:136-146). *)
Definition sanitize_kv (s : str) : str := map (fun c => if is_alnum c || (c =? 58) then c else 95) s.

(** get_prom_units, get_prom_per_unit (utils.rs:43-98). *)
Local Open Scope string_scope.
Definition prom_units : list (string * string) :=
  [("d", "days"); ("h", "hours"); ("min", "minutes"); ("s", "seconds"); ("ms", "milliseconds"); ("us", "microseconds"); ("ns", "nanoseconds");
   ("By", "bytes"); ("KiBy", "kibibytes"); ("MiBy", "mebibytes"); ("GiBy", "gibibytes"); ("TiBy", "tibibytes");
   ("KBy", "kilobytes"); ("MBy", "megabytes"); ("GBy", "gigabytes"); ("TBy", "terabytes");
   ("B", "bytes"); ("KB", "kilobytes"); ("MB", "megabytes"); ("GB", "gigabytes"); ("TB", "terabytes");
   ("m", "meters"); ("V", "volts"); ("A", "amperes"); ("J", "joules"); ("W", "watts"); ("g", "grams");
   ("Cel", "celsius"); ("Hz", "hertz"); ("1", "ratio"); ("%", "percent")].
Definition prom_per_units : list (string * string) :=
  [("s", "second"); ("m", "minute"); ("h", "hour"); ("d", "day"); ("w", "week"); ("mo", "month"); ("y", "year")].
Definition non_applicable : list string := ["1"; "d"; "h"; "min"; "s"; "ms"; "us"; "ns"].
Fixpoint assoc_str (u : str) (t : list (string * string)) : option str :=
  match t with
  | [] => None
  | (k, v) :: t => if str_eqb u (of_string k) then Some (of_string v) else assoc_str u t
  end.
(** get_unit_suffixes (utils.rs:3-41). *)
Definition unit_suffix (u : str) : option str :=
  match u with
  | [] => None
  | _ =>
    match assoc_str u prom_units with
    | Some m => Some m
    | None =>
      match split_once 47%N u with
      | None => None
      | Some (first, second) =>
        match existsb (fun k => str_eqb first (of_string k)) non_applicable, assoc_str first prom_units, assoc_str second prom_per_units with
        | true, _, Some p | false, None, Some p => Some (of_string "per_" ++ p)%list
        | false, Some f, Some p => Some (f ++ of_string "_per_" ++ p)%list
        | _, _, _ => None
        end
      end
    end
  end.
Local Close Scope string_scope.
Local Open Scope list_scope.

(** ** Labels *)
(** BTreeMap<String, Vec<String>>: entry(key).and_modify(push).or_insert (lib.rs:400-407). *)
Fixpoint bt_push (k : str) (v : str) (m : list (str * list str)) : list (str * list str) :=
  match m with
  | [] => [(k, [v])]
  | (k', l) :: r => match str_cmp k k' with Eq => (k', l ++ [v]) :: r | Lt => (k, [v]) :: m | Gt => (k', l) :: bt_push k v r end
  end.
(** Sorting strings: all sorts give the same list, so an insertion sort stands for
    sort_unstable. *)
Fixpoint str_insert (a : str) (l : list str) : list str :=
  match l with [] => [a] | b :: r => match str_cmp a b with Gt => b :: str_insert a r | _ => a :: l end end.
Definition str_sort (l : list str) : list str := fold_right str_insert [] l.

Section labels.
(** Display of a Value (opentelemetry/src/common.rs:377-389). *)
Context (show : value -> str).
(** get_attrs (lib.rs:399-425); a label is its name and value. *)
Definition get_attrs (kvs : list attr) (extra : list (str * str)) : list (str * str) :=
  map (fun e => (fst e, join [59] (str_sort (snd e)))) (fold_left (fun m kv => bt_push (sanitize_kv (fst kv)) (show (snd kv)) m) kvs []) ++ extra.
End labels.

(** ** Metric families *)
Inductive mtype := COUNTER | GAUGE | HISTOGRAM.
Definition mtype_eqb (a b : mtype) : bool := match a, b with COUNTER, COUNTER | GAUGE, GAUGE | HISTOGRAM, HISTOGRAM => true | _, _ => false end.
Inductive fvalue := FCounter (f : f64) | FGauge (f : f64) | FHist (sum : f64) (count : N) (buckets : list (f64 * N)).
(** A MetricFamily: the exporter puts exactly one Metric in each. *)
Record family := mk_fam { f_name : str; f_help : str; f_type : mtype; f_labels : list (str * str); f_value : fvalue }.

(** The fold of lib.rs:477-489; [None] is the panic of indexing past the counts, and the
    u64 counter wraps (a debug build would panic). *)
Fixpoint cumulate (acc : N) (bounds : list f64) (counts : list N) : option (list (f64 * N)) :=
  match bounds, counts with
  | [], _ => Some []
  | _ :: _, [] => None
  | b :: bs, c :: cs => let n := (acc + c) mod 2 ^ 64 in option_map (cons (b, n)) (cumulate n bs cs)
  end.

Section collect.
Context (alnum : char -> bool) (show : value -> str).
(** Collector's settings (lib.rs:186-197). *)
Record config := mk_cfg { without_units : bool; without_counter_suffixes : bool; disable_scope_info : bool; disable_target_info : bool;
  namespace : option str; selector : option (option (list str)) }.
(** with_namespace (config.rs:83-95). *)
Definition with_namespace (ns : str) : str := match rev ns with 95 :: _ => ns | _ => ns ++ [95] end.

(** get_name (lib.rs:264-277). *)
Definition get_name (c : config) (m : metric) : str :=
  let name := sanitize_name alnum (me_name m) in
  let suffix := if without_units c then None else unit_suffix (me_unit m) in
  match namespace c, suffix with
  | Some ns, Some s => ns ++ name ++ [95] ++ s
  | Some ns, None => ns ++ name
  | None, Some s => name ++ [95] ++ s
  | None, None => name
  end.
(** metric_type_and_name (lib.rs:230-262): exponential histograms are skipped. *)
Definition data_type {T} (d : mdata T) : option (mtype * bool) :=
  match d with
  | MGauge _ _ _ => Some (GAUGE, false)
  | MSum _ _ _ _ mono => Some (if mono then COUNTER else GAUGE, mono)
  | MHist _ _ _ _ => Some (HISTOGRAM, false)
  | MExpo _ _ _ _ => None
  end.
Definition amdata_type (d : amdata) : option (mtype * bool) := match d with DF64 d => data_type d | DU64 d => data_type d | DI64 d => data_type d end.
Definition type_and_name (c : config) (m : metric) : option (mtype * str) :=
  match amdata_type (me_data m) with
  | None => None
  | Some (t, mono) => Some (t, if mono && negb (without_counter_suffixes c) then get_name c m ++ of_string "_total" else get_name c m)
  end.

(** validate_metrics (lib.rs:427-460) on the families seen so far. *)
Definition seen := list (str * (mtype * str)).
Fixpoint find_fam (n : str) (s : seen) : option (mtype * str) := match s with [] => None | (k, v) :: s => if str_eqb n k then Some v else find_fam n s end.
Definition validate (name desc : str) (t : mtype) (s : seen) : bool * option str * seen :=
  match find_fam name s with
  | Some (t', h) =>
    if negb (mtype_eqb t' t) then (true, None, s)
    else if negb (str_eqb h desc) then (false, Some h, s)
    else (false, None, s)
  | None => (false, None, (name, (t, desc)) :: s)
  end.

Section points.
Context {T : Type} (flt : T -> f64) (name help : str) (extra : list (str * str)).
(** add_histogram_metric (lib.rs:462-506), add_sum_metric (508-547), add_gauge_metric
    (549-575). *)
Definition add_points (d : mdata T) : option (list family) :=
  match d with
  | MHist ps _ _ _ => all_some (map (fun p => option_map (fun b => mk_fam name help HISTOGRAM (get_attrs show (h_attrs p) extra) (FHist (flt (h_sum p)) (h_count p) b)) (cumulate 0 (h_bounds p) (h_buckets p))) ps)
  | MSum ps _ _ _ mono => Some (map (fun p => mk_fam name help (if mono then COUNTER else GAUGE) (get_attrs show (n_attrs p) extra) (if mono then FCounter (flt (n_value p)) else FGauge (flt (n_value p)))) ps)
  | MGauge ps _ _ => Some (map (fun p => mk_fam name help GAUGE (get_attrs show (n_attrs p) extra) (FGauge (flt (n_value p)))) ps)
  | MExpo _ _ _ _ => Some []
  end.
End points.
Definition add_metric (name help : str) (extra : list (str * str)) (d : amdata) : option (list family) :=
  match d with
  | DF64 d => add_points (fun f => f) name help extra d
  | DU64 d => add_points f64_of_Z name help extra d
  | DI64 d => add_points f64_of_Z name help extra d
  end.

(** One metric in the loop of lib.rs:354-388. *)
Definition one_metric (c : config) (extra : list (str * str)) (m : metric) (s : seen) : option (list family * seen) :=
  match type_and_name c m with
  | None => Some ([], s)
  | Some (t, name) =>
    match validate name (me_desc m) t s with
    | (true, _, s') => Some ([], s')
    | (false, help, s') => option_map (fun fs => (fs, s')) (add_metric name (match help with Some h => h | None => me_desc m end) extra (me_data m))
    end
  end.
Fixpoint metrics_loop (c : config) (extra : list (str * str)) (ms : list metric) (s : seen) : option (list family * seen) :=
  match ms with
  | [] => Some ([], s)
  | m :: ms =>
    match one_metric c extra m s with
    | None => None
    | Some (fs, s') => option_map (fun r => (fs ++ fst r, snd r)) (metrics_loop c extra ms s')
    end
  end.

Definition gauge_one : fvalue := FGauge (f64_of_Z 1).
(** create_info_metric, create_scope_info_metric (lib.rs:577-626); the memo tables
    create_target_info_once and scope_infos only cache them. *)
Definition target_info (res : list attr) : family := mk_fam (of_string "target_info") (of_string "Target metadata") GAUGE (get_attrs show res []) gauge_one.
Definition scope_name_labels (sc : scope) : list (str * str) :=
  (of_string "otel_scope_name", sc_name sc) :: match sc_version sc with Some v => [(of_string "otel_scope_version", v)] | None => [] end.
Definition scope_info (sc : scope) : family := mk_fam (of_string "otel_scope_info") (of_string "Instrumentation Scope metadata") GAUGE (scope_name_labels sc) gauge_one.
(** ResourceSelector::select (resource_selector.rs:34-44): [None] selects nothing,
    [Some None] everything, [Some (Some keys)] the listed keys. *)
Definition select (sel : option (option (list str))) (res : list attr) : list (str * str) :=
  match sel with
  | None => []
  | Some None => get_attrs show res []
  | Some (Some keys) => get_attrs show (filter (fun kv => existsb (str_eqb (fst kv)) keys) res) []
  end.

Fixpoint scopes_loop (c : config) (reslabels : list (str * str)) (sms : list (scope * list metric)) (s : seen) : option (list family * seen) :=
  match sms with
  | [] => Some ([], s)
  | (sc, ms) :: sms =>
    let info := if disable_scope_info c then [] else match sc_attrs sc with [] => [] | _ => [scope_info sc] end in
    let labels := if disable_scope_info c then [] else scope_name_labels sc ++ reslabels in
    match metrics_loop c labels ms s with
    | None => None
    | Some (fs, s') => option_map (fun r => (info ++ fs ++ fst r, snd r)) (scopes_loop c reslabels sms s')
    end
  end.
(** collect (lib.rs:285-392); [s] is what earlier scrapes left in metric_families, the
    collected data is given.  [res] is the resource of the first scrape, which the once
    cells keep. *)
Definition collect (c : config) (res : list attr) (sms : list (scope * list metric)) (s : seen) : option (list family * seen) :=
  option_map (fun r => ((if disable_target_info c then [] else match res with [] => [] | _ => [target_info res] end) ++ fst r, snd r))
    (scopes_loop c (select (selector c) res) sms s).
End collect.
