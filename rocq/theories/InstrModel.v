(** Instrument validation (opentelemetry-sdk/src/metrics/meter.rs:23-40, 560-640),
    view criteria and views (opentelemetry-sdk/src/metrics/instrument.rs:88-163,
    opentelemetry-sdk/src/metrics/view.rs:77-170).
    The feature experimental_metrics_disable_name_validation is off (the default). *)
From Coq Require Import List Bool Arith NArith ZArith String.
From Verif Require Import Str F64 HistModel.
Import ListNotations.
Local Open Scope N_scope.

(** ** Validation *)

(** [char::is_ascii_alphabetic], [is_ascii_alphanumeric], [is_ascii]. *)
Definition is_alpha (c : char) : bool := is_upper c || is_lower c.
Definition is_alnum (c : char) : bool := is_alpha c || is_digit c.
Definition is_ascii (c : char) : bool := c <? 128.
(** INSTRUMENT_NAME_ALLOWED_NON_ALPHANUMERIC_CHARS (meter.rs:28): '_', '.', '-', '/'. *)
Definition name_punct : list char := [95; 46; 45; 47].

(** [validate_instrument_name] (meter.rs:592-620); [str::len] counts bytes. *)
Definition validate_name (s : str) : bool :=
  match s with
  | [] => false
  | c :: _ =>
    negb (255 <? blen s) && is_alpha c
    && negb (existsb (fun c => negb (is_alnum c) && negb (existsb (N.eqb c) name_punct)) s)
  end.
(** [validate_instrument_unit] (meter.rs:622-636). *)
Definition validate_unit (u : option str) : bool :=
  match u with
  | Some u => negb (63 <? blen u) && negb (existsb (fun c => negb (is_ascii c)) u)
  | None => true
  end.
(** [validate_instrument_config] (meter.rs:560-562). *)
Definition validate_config (name : str) (unit : option str) : bool := validate_name name && validate_unit unit.

(** InstrumentKind (instrument.rs:15-41). *)
Inductive kind := KCounter | KObsCounter | KUpDown | KObsUpDown | KHistogram | KGauge | KObsGauge.
Definition kind_eq_dec : forall x y : kind, {x = y} + {x <> y}. decide equality. Defined.

(** The validation at the head of each create function (meter.rs:72-447): only
    histograms have boundaries. *)
Definition create_ok (k : kind) (name : str) (unit : option str) (boundaries : option (list f64)) : bool :=
  validate_config name unit
  && match k, boundaries with KHistogram, Some b => bounds_valid b | _, _ => true end.

(** ** Instruments and streams *)

(** InstrumentationScope (common.rs:455-478); [KV] is KeyValue. *)
Record scope {KV : Type} := mk_scope { sc_name : str; sc_version : option str; sc_url : option str; sc_attrs : list KV }.
Arguments scope : clear implicits.
Definition opt_str_eqb (a b : option str) : bool :=
  match a, b with Some a, Some b => str_eqb a b | None, None => true | _, _ => false end.
(** [scope == InstrumentationScope::default()] (common.rs:480-494: equal names,
    versions, URLs and equally many attributes; no attribute is left to compare). *)
Definition scope_is_default {KV} (s : scope KV) : bool :=
  str_eqb (sc_name s) [] && opt_str_eqb (sc_version s) None && opt_str_eqb (sc_url s) None
  && (List.length (sc_attrs s) =? 0)%nat.

(** Aggregation (aggregation.rs:15-90) and [validate] (aggregation.rs:110-148). *)
Inductive agg :=
| ADrop | ADefault | ASum | ALastValue
| AExplicit (boundaries : list f64) (record_min_max : bool)
| AExpo (max_size : N) (max_scale : Z) (record_min_max : bool).
Fixpoint monotonic (l : list f64) : bool :=
  match l with
  | x :: ((y :: _) as r) => negb (f64_leb y x) && monotonic r
  | _ => true
  end.
Definition agg_valid (a : agg) : bool :=
  match a with
  | AExplicit b _ => monotonic b
  | AExpo _ sc _ => negb (20 <? sc)%Z && negb (sc <? -10)%Z
  | _ => true
  end.

Section views.
Context {KV : Type}.
(** Instrument (instrument.rs:88-101) and Stream (instrument.rs:190-213). *)
Record instrument := mk_inst { i_name : str; i_desc : str; i_kind : option kind; i_unit : str; i_scope : scope KV }.
Record stream := mk_stream { st_name : str; st_desc : str; st_unit : str; st_agg : option agg;
                             st_keys : option (list str); st_limit : option N }.

(** [is_empty] and the [matches_*] functions (instrument.rs:121-163). *)
Definition is_nil (s : str) : bool := match s with [] => true | _ => false end.
Definition inst_is_empty (c : instrument) : bool :=
  is_nil (i_name c) && is_nil (i_desc c) && match i_kind c with None => true | _ => false end
  && is_nil (i_unit c) && scope_is_default (i_scope c).
Definition matches_name (c o : instrument) : bool := is_nil (i_name c) || str_eqb (i_name c) (i_name o).
Definition matches_desc (c o : instrument) : bool := is_nil (i_desc c) || str_eqb (i_desc c) (i_desc o).
Definition matches_kind (c o : instrument) : bool :=
  match i_kind c, i_kind o with
  | None, _ => true
  | Some k, Some k' => if kind_eq_dec k k' then true else false
  | Some _, None => false
  end.
Definition matches_unit (c o : instrument) : bool := is_nil (i_unit c) || str_eqb (i_unit c) (i_unit o).
Definition matches_scope (c o : instrument) : bool :=
  (is_nil (sc_name (i_scope c)) || str_eqb (sc_name (i_scope c)) (sc_name (i_scope o)))
  && (match sc_version (i_scope c) with None => true | v => opt_str_eqb v (sc_version (i_scope o)) end)
  && (match sc_url (i_scope c) with None => true | v => opt_str_eqb v (sc_url (i_scope o)) end).
Definition inst_matches (c o : instrument) : bool :=
  matches_name c o && matches_desc c o && matches_kind c o && matches_unit c o && matches_scope c o.
End views.
Arguments instrument : clear implicits.

(** ** The glob crate's patterns

    The code calls [glob::Pattern::new] and [Pattern::matches] (glob 0.3; the
    crate is a dependency, not in the repository: this transcription of its
    tokeniser and of its backtracking matcher with default options is trusted). *)
Inductive spec1 := SChar (c : char) | SRange (a b : char).
Inductive token := TChar (c : char) | TAny | TSeq | TRec | TIn (l : list spec1) | TNotIn (l : list spec1).

Definition c_star : char := 42. Definition c_quest : char := 63. Definition c_open : char := 91.
Definition c_close : char := 93. Definition c_bang : char := 33. Definition c_dash : char := 45.
Definition is_sep (c : char) : bool := c =? 47.

Fixpoint find_pos (c : char) (s : str) : option nat :=
  match s with
  | [] => None
  | x :: s => if x =? c then Some O else option_map S (find_pos c s)
  end.
Fixpoint char_specs (fuel : nat) (s : str) : list spec1 :=
  match fuel with
  | O => []
  | S fuel =>
    match s with
    | [] => []
    | a :: d :: b :: r => if d =? c_dash then SRange a b :: char_specs fuel r else SChar a :: char_specs fuel (d :: b :: r)
    | a :: r => SChar a :: char_specs fuel r
    end
  end.
Fixpoint stars (s : str) : nat := match s with c :: s => if c =? c_star then S (stars s) else O | [] => O end.
(** [prev]: the character before the rest, if any; [toks]: tokens so far,
    reversed; [None]: Err(PatternError). *)
Fixpoint tokenise (fuel : nat) (prev : option char) (toks : list token) (s : str) : option (list token) :=
  match fuel with
  | O => None
  | S fuel =>
    match s with
    | [] => Some (rev toks)
    | c :: r =>
      if c =? c_quest then tokenise fuel (Some c) (TAny :: toks) r
      else if c =? c_star then
        match stars s with
        | 1%nat => tokenise fuel (Some c) (TSeq :: toks) r
        | 2%nat =>
          let rest := skipn 2 s in
          let at_start := match prev with None => true | Some p => is_sep p end in
          let toks' := match toks with TRec :: _ :: _ => toks | _ => TRec :: toks end in
          if at_start then
            match rest with
            | [] => tokenise fuel (Some c) toks' []
            | x :: rest => if is_sep x then tokenise fuel (Some x) toks' rest else None
            end
          else None
        | _ => None
        end
      else if c =? c_open then
        match r with
        | x :: r1 =>
          if x =? c_bang then
            match r1 with
            | _ :: _ :: _ =>
              match find_pos c_close (skipn 1 r1) with
              | Some j => tokenise fuel (Some c_close) (TNotIn (char_specs (j + 2) (firstn (j + 1) r1)) :: toks)
                            (skipn (j + 2) r1)
              | None => None
              end
            | _ => None
            end
          else
            match r1 with
            | _ :: _ =>
              match find_pos c_close r1 with
              | Some j => tokenise fuel (Some c_close) (TIn (char_specs (j + 2) (firstn (j + 1) r)) :: toks)
                            (skipn (j + 2) r)
              | None => None
              end
            | [] => None
            end
        | [] => None
        end
      else tokenise fuel (Some c) (TChar c :: toks) r
    end
  end.
Definition pattern_new (s : str) : option (list token) := tokenise (S (List.length s)) None [] s.

Definition in_specs (l : list spec1) (c : char) : bool :=
  existsb (fun sp => match sp with SChar x => c =? x | SRange a b => (a <=? c) && (c <=? b) end) l.
Inductive mresult := MMatch | MSub | MEntire.
(** [matches_from]; [follows] is [follows_separator], which only the assertion on
    a recursive wildcard reads under the default options. *)
Fixpoint matches_from (toks : list token) (s : str) : mresult :=
  match toks with
  | [] => match s with [] => MMatch | _ => MSub end
  | TSeq :: toks =>
    (fix go (s : str) : mresult :=
       match matches_from toks s with
       | MSub => match s with _ :: s' => go s' | [] =>
                   (* the loop ends; control reaches the end of the token loop,
                      with later tokens still to be tried on the empty rest *)
                   matches_from toks [] end
       | m => m
       end) s
  | TRec :: toks =>
    match matches_from toks s with
    | MSub =>
      (fix go (s : str) : mresult :=
         match s with
         | [] => matches_from toks []
         | c :: s' => if is_sep c then match matches_from toks s' with MSub => go s' | m => m end else go s'
         end) s
    | m => m
    end
  | t :: toks =>
    match s with
    | [] => MEntire
    | c :: s =>
      if match t with TAny => true | TIn l => in_specs l c | TNotIn l => negb (in_specs l c) | TChar c2 => c =? c2 | _ => false end
      then matches_from toks s else MSub
    end
  end.
Definition pattern_matches (toks : list token) (s : str) : bool :=
  match matches_from toks s with MMatch => true | _ => false end.

(** ** Views *)
Section new_view.
Context {KV : Type}.
Inductive view := VEmpty | VMatch (pat : option (list token)) (criteria : instrument KV) (aggr : option agg) (mask : stream).
Definition has_wildcard (s : str) : bool := existsb (fun c => (c =? c_star) || (c =? c_quest)) s.
(** [new_view] (view.rs:105-146); [None] is Err(MetricError::Config). *)
Definition new_view (c : instrument KV) (m : stream) : option view :=
  if inst_is_empty c then Some VEmpty
  else
    let finish pat :=
      match st_agg m with
      | Some a => if agg_valid a then Some (VMatch pat c (Some a) m) else Some VEmpty
      | None => Some (VMatch pat c None m)
      end in
    if has_wildcard (i_name c) then
      if is_nil (st_name m) then
        match pattern_new (i_name c) with
        | Some t => finish (Some t)
        | None => None
        end
      else Some VEmpty
    else finish None.
Definition or_else (a b : str) : str := if is_nil a then b else a.
(** Applying the view ([View::match_inst], view.rs:77-79 and 147-170). *)
Definition apply_view (v : view) (i : instrument KV) : option stream :=
  match v with
  | VEmpty => None
  | VMatch pat c a m =>
    let hit := match pat with
               | Some t => pattern_matches t (i_name i) && matches_desc c i && matches_kind c i && matches_unit c i && matches_scope c i
               | None => inst_matches c i
               end in
    if hit then Some (mk_stream (or_else (st_name m) (i_name i)) (or_else (st_desc m) (i_desc i)) (or_else (st_unit m) (i_unit i))
                        a (st_keys m) (st_limit m))
    else None
  end.
End new_view.
