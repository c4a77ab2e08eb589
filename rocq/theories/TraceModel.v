(** Model of opentelemetry/src/trace_context.rs (ids and flags) and
    opentelemetry/src/trace/span_context.rs (TraceState, SpanContext). *)
From Coq Require Import List NArith Bool.
From Verif Require Import Str.
Import ListNotations.
Local Open Scope N_scope.

(** ** Identifiers *)

Definition two128 : N := 2 ^ 128.
Definition two64 : N := 2 ^ 64.

(** [uN::to_be_bytes] with [w] bytes (trace_context.rs:106-108, 167-169). *)
Fixpoint be_bytes (w : nat) (v : N) : list N :=
  match w with
  | O => []
  | S w' => be_bytes w' (v / 256) ++ [v mod 256]
  end.

(** [uN::from_be_bytes] (trace_context.rs:101-103, 162-164). *)
Definition of_be_bytes (bs : list N) : N := fold_left (fun acc b => acc * 256 + b) bs 0.

(** [TraceId]/[SpanId] are u128/u64 newtypes (trace_context.rs:94, 155). *)
Definition trace_id_to_bytes (t : N) : list N := be_bytes 16 t.
Definition trace_id_from_bytes (bs : list N) : N := of_be_bytes bs.
Definition span_id_to_bytes (s : N) : list N := be_bytes 8 s.
Definition span_id_from_bytes (bs : list N) : N := of_be_bytes bs.

(** [TraceId::from_hex] (trace_context.rs:122-124), [SpanId::from_hex] (183-185). *)
Definition trace_id_from_hex (s : str) : option N := parse_hex two128 s.
Definition span_id_from_hex (s : str) : option N := parse_hex two64 s.

(** [Display for TraceId] (trace_context.rs:139-143), [SpanId] (200-204). *)
Definition trace_id_display (t : N) : str := hex_pad 32 t.
Definition span_id_display (s : N) : str := hex_pad 16 s.

(** ** Flags *)

(** [TraceFlags::SAMPLED] (trace_context.rs:33). *)
Definition SAMPLED : N := 1.
(** [is_sampled], [with_sampled] (trace_context.rs:41-52); [!SAMPLED] on a u8. *)
Definition flags_is_sampled (f : N) : bool := N.land f SAMPLED =? SAMPLED.
Definition flags_with_sampled (f : N) (sampled : bool) : N :=
  if sampled then N.lor f SAMPLED else N.land f (255 - SAMPLED).

(** ** TraceState *)

(** [TraceState(Option<VecDeque<(String, String)>>)] (span_context.rs:14-15). *)
Definition tstate := option (list (str * str)).

Definition ts_special (b : N) : bool := (b =? 95) || (b =? 45) || (b =? 42) || (b =? 47).

(** The loop of [TraceState::valid_key] (span_context.rs:31-48): [i] is the
    index, [len] the byte length of the key, [vendor] the index of the '@'. *)
Fixpoint valid_key_loop (len i : N) (vendor : option N) (bs : list N) : bool :=
  match bs with
  | [] => true
  | b :: r =>
    if negb (is_lower b || is_digit b || ts_special b || (b =? 64)) then false
    else if (i =? 0) && (negb (is_lower b) && negb (is_digit b)) then false
    else if b =? 64 then
      if match vendor with Some _ => true | None => false end || (i + 14 <? len) then false
      else valid_key_loop len (i + 1) (Some i) r
    else
      match vendor with
      | Some start =>
        if (i =? start + 1) && negb (is_lower b || is_digit b) then false
        else valid_key_loop len (i + 1) vendor r
      | None => valid_key_loop len (i + 1) vendor r
      end
  end.

(** [TraceState::valid_key] (span_context.rs:24-51). *)
Definition ts_valid_key (k : str) : bool :=
  if 256 <? blen k then false else valid_key_loop (blen k) 0 None (utf8 k).

(** [TraceState::valid_value] (span_context.rs:56-62). *)
Definition ts_valid_value (v : str) : bool :=
  if 256 <? blen v then false
  else negb (existsb (N.eqb 44) v || existsb (N.eqb 61) v).

(** [TraceStateError] (span_context.rs:216-238). *)
Inductive ts_error := ErrKey (k : str) | ErrValue (v : str) | ErrList (m : str).
Inductive result (A : Type) := Ok (a : A) | Err (e : ts_error).
Arguments Ok {A}. Arguments Err {A}.

(** The [map]+[collect] of [from_key_value] (span_context.rs:83-96): first
    error wins. *)
Fixpoint ts_collect (l : list (str * str)) : result (list (str * str)) :=
  match l with
  | [] => Ok []
  | (k, v) :: r =>
    if negb (ts_valid_key k) then Err (ErrKey k)
    else if negb (ts_valid_value v) then Err (ErrValue v)
    else match ts_collect r with
         | Ok r' => Ok ((k, v) :: r')
         | Err e => Err e
         end
  end.

(** [TraceState::from_key_value] (span_context.rs:77-103). *)
Definition ts_from_key_value (l : list (str * str)) : result tstate :=
  match ts_collect l with
  | Ok [] => Ok None
  | Ok l' => Ok (Some l')
  | Err e => Err e
  end.

(** [TraceState::get] (span_context.rs:106-116). *)
Fixpoint ts_find (k : str) (l : list (str * str)) : option str :=
  match l with
  | [] => None
  | (k', v) :: r => if str_eqb k' k then Some v else ts_find k r
  end.
Definition ts_get (t : tstate) (k : str) : option str :=
  match t with Some l => ts_find k l | None => None end.

(** [TraceState::delete_from_deque] (span_context.rs:162-170). *)
Fixpoint remove_first (k : str) (l : list (str * str)) : list (str * str) :=
  match l with
  | [] => []
  | (k', v) :: r => if str_eqb k' k then r else (k', v) :: remove_first k r
  end.
Definition ts_delete_from_deque (t : tstate) (k : str) : tstate := option_map (remove_first k) t.

(** [TraceState::insert] (span_context.rs:124-143). *)
Definition ts_insert (t : tstate) (k v : str) : result tstate :=
  if negb (ts_valid_key k) then Err (ErrKey k)
  else if negb (ts_valid_value v) then Err (ErrValue v)
  else
    let kvs := match ts_delete_from_deque t k with Some l => l | None => [] end in
    Ok (Some ((k, v) :: kvs)).

(** [TraceState::delete] (span_context.rs:152-159). *)
Definition ts_delete (t : tstate) (k : str) : result tstate :=
  if negb (ts_valid_key k) then Err (ErrKey k) else Ok (ts_delete_from_deque t k).

(** [TraceState::header_delimited], [header] (span_context.rs:174-189). *)
Definition ts_header_delimited (t : tstate) (entry_delim list_delim : str) : str :=
  match t with
  | Some l => join list_delim (map (fun e => fst e ++ entry_delim ++ snd e) l)
  | None => []
  end.
Definition ts_header (t : tstate) : str := ts_header_delimited t [61] [44].

(** [FromStr for TraceState] (span_context.rs:195-211). *)
Fixpoint ts_split_members (ms : list str) : result (list (str * str)) :=
  match ms with
  | [] => Ok []
  | m :: r =>
    match split_once 61 m with
    | None => Err (ErrList m)
    | Some (key, rest) =>
      (* value = "=" ++ rest with leading '=' trimmed *)
      match ts_split_members r with
      | Ok r' => Ok ((key, drop_while (N.eqb 61) (61 :: rest)) :: r')
      | Err e => Err e
      end
    end
  end.
Definition ts_from_str (s : str) : result tstate :=
  match ts_split_members (split_terminator 44 s) with
  | Ok l => ts_from_key_value l
  | Err e => Err e
  end.

(** ** SpanContext *)

(** [SpanContext] (span_context.rs:250-257). *)
Record span_context := mk_sc {
  sc_trace : N; sc_span : N; sc_flags : N; sc_remote : bool; sc_state : tstate }.

(** [SpanContext::NONE] (span_context.rs:261-267). *)
Definition sc_none : span_context := mk_sc 0 0 0 false None.

(** [SpanContext::is_valid], [is_sampled] (span_context.rs:310-324). *)
Definition sc_is_valid (c : span_context) : bool :=
  negb (sc_trace c =? 0) && negb (sc_span c =? 0).
Definition sc_is_sampled (c : span_context) : bool := flags_is_sampled (sc_flags c).

(** The values a Rust [SpanContext] can hold: u128, u64 and u8 fields. *)
Definition sc_typed (c : span_context) : bool :=
  (sc_trace c <? two128) && (sc_span c <? two64) && (sc_flags c <? 256).
