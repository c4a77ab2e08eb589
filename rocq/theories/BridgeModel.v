(** The bridges from the [log] and [tracing] crates to the logs API:
    opentelemetry-appender-log/src/lib.rs:122-770 (with and without the feature with-serde) and
    opentelemetry-appender-tracing/src/layer.rs:12-280.

    The features experimental_metadata_attributes and experimental_use_tracing_span_context
    are off (the default); spec_unstable_logs_enabled is the flag [checked].  A value given
    to serde is the tree of calls its Serialize implementation makes; [SFail] is one that
    returns an error.  Maps are lists of entries in insertion order; the iteration order of
    the HashMap behind them is any. *)
From Coq Require Import List NArith ZArith Bool String.
From Verif Require Import Str F64 ContextModel TraceModel LogModel OtlpModel JsonModel.
Import ListNotations.
Local Open Scope Z_scope.

Definition lattr : Type := str * lany.

(** ** Levels (appender-log/src/lib.rs:204-212, layer.rs:272-280; [Level::as_str]) *)
Inductive level := LvError | LvWarn | LvInfo | LvDebug | LvTrace.
Definition severity_of_level (l : level) : N :=
  match l with LvError => 17 | LvWarn => 13 | LvInfo => 9 | LvDebug => 5 | LvTrace => 1 end%N.
Definition level_text (l : level) : str :=
  of_string match l with LvError => "ERROR" | LvWarn => "WARN" | LvInfo => "INFO" | LvDebug => "DEBUG" | LvTrace => "TRACE" end.

(** ** Integers of any width: [try_into] an i64, else the text
    (lib.rs:272-294, 408-458; layer.rs:125-175). *)
Definition show_int (z : Z) : str := if z <? 0 then 45%N :: dec_of 40 (Z.to_N (- z)) else dec_of 40 (Z.to_N z).
Definition int_value (z : Z) : lany := if (- 2 ^ 63 <=? z) && (z <? 2 ^ 63) then LInt z else LString (show_int z).

(** ** Values without serde (lib.rs:240-307): [value.visit] calls the method of what the
    value holds; anything else is shown as text. *)
Inductive kvalue := KBool (b : bool) | KStr (s : str) | KInt (z : Z) | KFloat (f : f64) | KAny (text : str).
Definition plain_value (v : kvalue) : lany :=
  match v with KBool b => LBool b | KStr s => LString s | KInt z => int_value z | KFloat f => LDouble f | KAny t => LString t end.

(** ** Values with serde (lib.rs:310-770) *)
Inductive sval :=
| SBool (b : bool) | SInt (z : Z) | SFloat (f : f64) | SChar (c : N) | SStr (s : str) | SBytes (b : list N)
| SNone | SSome (v : sval) | SUnit | SUnitStruct (name : str) | SUnitVariant (variant : str)
| SNewtypeStruct (v : sval) | SNewtypeVariant (variant : str) (v : sval)
| SSeq (l : list sval) | STuple (l : list sval) | STupleStruct (l : list sval) | STupleVariant (variant : str) (l : list sval)
| SMap (l : list (sval * sval)) | SStruct (l : list (str * sval)) | SStructVariant (variant : str) (l : list (str * sval))
| SFail.
(** Err, Ok(None), Ok(Some). *)
Definition outcome : Type := option (option lany).

(** HashMap::insert. *)
Fixpoint put (k : str) (v : lany) (m : list (str * lany)) : list (str * lany) :=
  match m with
  | [] => [(k, v)]
  | (k', v') :: m => if str_eqb k k' then (k, v) :: m else (k', v') :: put k v m
  end.
(** SerializeSeq, SerializeTuple, SerializeTupleStruct, SerializeTupleVariant
    (lib.rs:588-677): the elements that are something, in order. *)
Definition elements (l : list outcome) : option (list lany) :=
  fold_right (fun r acc =>
    match r, acc with
    | Some (Some v), Some l => Some (v :: l)
    | Some None, Some l => Some l
    | _, _ => None
    end) (Some []) l.
(** SerializeStruct, SerializeStructVariant (lib.rs:719-767) and, once the keys are text,
    SerializeMap::serialize_value (lib.rs:698-711). *)
Definition entries (l : list (option str * outcome)) : option (list (str * lany)) :=
  fold_left (fun acc kv =>
    match acc, fst kv, snd kv with
    | Some m, Some k, Some (Some v) => Some (put k v m)
    | Some m, Some k, Some None => Some m
    | _, _, _ => None
    end) l (Some []).

Section serde.
(** The derived Debug of Option<AnyValue>, but for integers and None, which are spelt out. *)
Context (debug : option lany -> str).
Definition debug_key (k : option lany) : str :=
  match k with
  | None => of_string "None"
  | Some (LInt z) => of_string "Some(Int(" ++ show_int z ++ of_string "))"
  | _ => debug k
  end.
(** SerializeMap::serialize_key (lib.rs:684-696). *)
Definition key_text (k : outcome) : option str :=
  match k with
  | None => None
  | Some (Some (LString s)) => Some s
  | Some k => Some (debug_key k)
  end.
(** ValueSerializer (lib.rs:385-586). *)
Fixpoint serialize (v : sval) : outcome :=
  match v with
  | SBool b => Some (Some (LBool b))
  | SInt z => Some (Some (int_value z))
  | SFloat f => Some (Some (LDouble f))
  | SChar c => Some (Some (LString [c]))
  | SStr s => Some (Some (LString s))
  | SBytes b => Some (Some (LBytes b))
  | SNone => Some None
  | SSome v => serialize v
  | SUnit => Some None
  | SUnitStruct name => Some (Some (LString name))
  | SUnitVariant variant => Some (Some (LString variant))
  | SNewtypeStruct v => serialize v
  | SNewtypeVariant variant v => option_map (fun m => Some (LMap m)) (entries [(Some variant, serialize v)])
  | SSeq l | STuple l | STupleStruct l => option_map (fun l => Some (LList l)) (elements (map serialize l))
  | STupleVariant variant l => option_map (fun l => Some (LMap [(variant, LList l)])) (elements (map serialize l))
  | SMap l => option_map (fun m => Some (LMap m)) (entries (map (fun kv => (key_text (serialize (fst kv)), serialize (snd kv))) l))
  | SStruct l => option_map (fun m => Some (LMap m)) (entries (map (fun kv => (Some (fst kv), serialize (snd kv))) l))
  | SStructVariant variant l =>
    option_map (fun m => Some (LMap [(variant, LMap m)])) (entries (map (fun kv => (Some (fst kv), serialize (snd kv))) l))
  | SFail => None
  end.
(** any_value::serialize (lib.rs:328-330): [.ok()?]. *)
Definition serde_value (v : sval) : option lany := match serialize v with Some o => o | None => None end.

(** ** The log bridge (lib.rs:136-185, 214-238) *)
(** Both kinds of build: the values are converted by [conv]. *)
Definition log_attributes {V} (conv : V -> option lany) (kvs : list (str * V)) : list lattr :=
  flat_map (fun kv => match conv (snd kv) with Some a => [(fst kv, a)] | None => [] end) kvs.
Definition log_ops {V} (conv : V -> option lany) (lv : level) (args target : str) (kvs : list (str * V)) : list (rec_op lattr lany) :=
  [SetSev (severity_of_level lv); SetSevText (level_text lv); SetBody (LString args);
   AddAttrs (log_attributes conv kvs); SetTarget target].
End serde.

(** Logging through a bridge: [procs] are the provider's processors, [enabled] their
    event_enabled answers; [checked] says whether the bridge asks. *)
Definition bridge {V} (checked : bool) (enabled : list bool) (now : Z) (cx : context span_context V)
    (procs : list (logrec lattr lany -> logrec lattr lany)) (ops : list (rec_op lattr lany)) : list (logrec lattr lany) :=
  if checked && negb (event_enabled cx enabled) then []
  else emit now cx procs (fold_left rec_apply ops rec_new).

(** ** The tracing layer (layer.rs:69-176, 207-269) *)
(** A field as the macros record it: by Debug (text given), as an error (Display text
    given), bytes, string, bool, float, or integer of any width. *)
Inductive fvalue := FDebug (t : str) | FError (t : str) | FBytes (b : list N) | FStr (s : str) | FBool (b : bool) | FFloat (f : f64) | FInt (z : Z).
Definition MESSAGE : str := of_string "message".
Definition field_op (f : str * fvalue) : rec_op lattr lany :=
  let name := fst f in
  match snd f with
  | FDebug t => if str_eqb name MESSAGE then SetBody (LString t) else AddAttr (name, LString t)
  | FError t => AddAttr (of_string "exception.message", LString t)
  | FBytes b => AddAttr (name, LBytes b)
  | FStr s => if str_eqb name MESSAGE then SetBody (LString s) else AddAttr (name, LString s)
  | FBool b => AddAttr (name, LBool b)
  | FFloat x => AddAttr (name, LDouble x)
  | FInt z => AddAttr (name, int_value z)
  end.
Definition tracing_ops (lv : level) (name target : str) (fields : list (str * fvalue)) : list (rec_op lattr lany) :=
  [SetTarget target; SetEvent name; SetSev (severity_of_level lv); SetSevText (level_text lv)] ++ map field_op fields.
