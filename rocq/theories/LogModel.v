(** Log records, the logger, and the processors that export synchronously. *)
From Coq Require Import List Arith NArith ZArith Bool.
From Verif Require Import Str ContextModel TraceModel ProviderModel.
Import ListNotations.

(** * GrowableArray (opentelemetry-sdk/src/growable_array.rs:15-165) *)
Section growable.
Context {T : Type}.
Variable (default : T) (cap : nat).

(** The fixed-size array is a list of [cap] elements. *)
Record garray := mk_ga { ga_inline : list T; ga_overflow : option (list T); ga_count : nat }.
(** [default] (lines 30-38). *)
Definition ga_new : garray := mk_ga (repeat default cap) None 0.
(** [push] (lines 57-66). *)
Definition ga_push (v : T) (g : garray) : garray :=
  if ga_count g <? cap then mk_ga (set_nth (ga_count g) v (ga_inline g)) (ga_overflow g) (S (ga_count g))
  else mk_ga (ga_inline g) (Some (match ga_overflow g with Some o => o | None => [] end ++ [v])) (ga_count g).
(** [get] (lines 73-81); [None] is the overflow of [index - MAX_INLINE_CAPACITY]. *)
Definition ga_get (i : nat) (g : garray) : option (option T) :=
  if i <? ga_count g then Some (nth_error (ga_inline g) i)
  else match ga_overflow g with
       | Some o => if i <? cap then None else Some (nth_error o (i - cap))
       | None => Some None
       end.
(** [len] (line 86). *)
Definition ga_len (g : garray) : nat := ga_count g + match ga_overflow g with Some o => length o | None => 0 end.
(** [iter] (lines 98-108); [into_iter] (lines 137-155) has the same branches. *)
Definition ga_iter (g : garray) : list T :=
  match ga_overflow g with
  | None | Some [] => firstn (ga_count g) (ga_inline g) ++ []
  | Some o => firstn (ga_count g) (ga_inline g) ++ o
  end.
End growable.
Arguments garray : clear implicits.

(** * SdkLogRecord (opentelemetry-sdk/src/logs/record.rs:25-118)

    [A] is the type of attributes ([(Key, AnyValue)]), [B] that of bodies. *)
Section record.
Context {A B : Type}.

(** [TraceContext] (record.rs:205-226). *)
Record tctx := mk_tctx { tc_trace : N; tc_span : N; tc_flags : option N }.
Record logrec := mk_rec {
  lr_event : option str; lr_target : option str; lr_time : option Z; lr_observed : option Z;
  lr_trace : option tctx; lr_sevtext : option str; lr_sev : option N; lr_body : option B;
  lr_attrs : garray (option A) }.

(** PREALLOCATED_ATTRIBUTE_CAPACITY (record.rs:11). *)
Definition PREALLOC : nat := 5.
Definition rec_new : logrec := mk_rec None None None None None None None None (ga_new None PREALLOC).

(** The setters (record.rs:54-117). *)
Inductive rec_op :=
| SetEvent (s : str) | SetTarget (s : str) | SetTime (t : Z) | SetObserved (t : Z)
| SetSevText (s : str) | SetSev (n : N) | SetBody (b : B)
| AddAttr (a : A) | AddAttrs (l : list A) | SetTrace (t s : N) (f : option N).
Definition add_attr (r : logrec) (a : A) : logrec :=
  mk_rec (lr_event r) (lr_target r) (lr_time r) (lr_observed r) (lr_trace r) (lr_sevtext r) (lr_sev r) (lr_body r) (ga_push PREALLOC (Some a) (lr_attrs r)).
Definition rec_apply (r : logrec) (o : rec_op) : logrec :=
  match o with
  | SetEvent s => mk_rec (Some s) (lr_target r) (lr_time r) (lr_observed r) (lr_trace r) (lr_sevtext r) (lr_sev r) (lr_body r) (lr_attrs r)
  | SetTarget s => mk_rec (lr_event r) (Some s) (lr_time r) (lr_observed r) (lr_trace r) (lr_sevtext r) (lr_sev r) (lr_body r) (lr_attrs r)
  | SetTime t => mk_rec (lr_event r) (lr_target r) (Some t) (lr_observed r) (lr_trace r) (lr_sevtext r) (lr_sev r) (lr_body r) (lr_attrs r)
  | SetObserved t => mk_rec (lr_event r) (lr_target r) (lr_time r) (Some t) (lr_trace r) (lr_sevtext r) (lr_sev r) (lr_body r) (lr_attrs r)
  | SetSevText s => mk_rec (lr_event r) (lr_target r) (lr_time r) (lr_observed r) (lr_trace r) (Some s) (lr_sev r) (lr_body r) (lr_attrs r)
  | SetSev n => mk_rec (lr_event r) (lr_target r) (lr_time r) (lr_observed r) (lr_trace r) (lr_sevtext r) (Some n) (lr_body r) (lr_attrs r)
  | SetBody b => mk_rec (lr_event r) (lr_target r) (lr_time r) (lr_observed r) (lr_trace r) (lr_sevtext r) (lr_sev r) (Some b) (lr_attrs r)
  | AddAttr a => add_attr r a
  | AddAttrs l => fold_left add_attr l r
  | SetTrace t s f => mk_rec (lr_event r) (lr_target r) (lr_time r) (lr_observed r) (Some (mk_tctx t s f)) (lr_sevtext r) (lr_sev r) (lr_body r) (lr_attrs r)
  end.
(** [attributes_iter] (record.rs:186-188). *)
Definition attributes (r : logrec) : list A :=
  flat_map (fun o => match o with Some a => [a] | None => [] end) (ga_iter (lr_attrs r)).

(** * SdkLogger::emit (opentelemetry-sdk/src/logs/logger.rs:31-53)

    A processor gets the record by mutable reference: here a function giving the
    record as it leaves it.  [now] is the clock.  The result lists what each
    processor received. *)
Definition with_trace (t : option tctx) (r : logrec) : logrec :=
  mk_rec (lr_event r) (lr_target r) (lr_time r) (lr_observed r) t (lr_sevtext r) (lr_sev r) (lr_body r) (lr_attrs r).
Definition with_observed (t : option Z) (r : logrec) : logrec :=
  mk_rec (lr_event r) (lr_target r) (lr_time r) t (lr_trace r) (lr_sevtext r) (lr_sev r) (lr_body r) (lr_attrs r).
Definition tctx_of (sc : span_context) : tctx := mk_tctx (sc_trace sc) (sc_span sc) (Some (sc_flags sc)).
Fixpoint deliver (procs : list (logrec -> logrec)) (r : logrec) : list logrec :=
  match procs with
  | [] => []
  | p :: procs => r :: deliver procs (p r)
  end.
Definition emit {V} (now : Z) (cx : context span_context V) (procs : list (logrec -> logrec)) (r : logrec) : list logrec :=
  if cx_is_suppressed cx then []
  else
    let r := match lr_trace r with
             | None => if cx_has_active_span cx
                       then match cx_span cx with Some sc => with_trace (Some (tctx_of sc)) r | None => r end
                       else r
             | Some _ => r
             end in
    let r := match lr_observed r with None => with_observed (Some now) r | Some _ => r end in
    deliver procs r.
(** [event_enabled] (logger.rs:57-65). *)
Definition event_enabled {V} (cx : context span_context V) (procs : list bool) : bool :=
  if cx_is_suppressed cx then false else existsb (fun b => b) procs.
End record.
Arguments logrec : clear implicits.
Arguments rec_op : clear implicits.

(** [logger_with_scope] (logger_provider.rs:54-71): how many processors a logger
    obtained now will reach (none of a provider that is shut down). *)
Definition logger_reach (shutdown : bool) (n : nat) : nat := if shutdown then 0 else n.

(** * Processors that export on the calling thread

    SimpleSpanProcessor (trace/span_processor.rs:113-166), SimpleLogProcessor
    (logs/simple_log_processor.rs:61-136) and SimpleConcurrentLogProcessor
    (logs/concurrent_log_processor.rs:17-63), called from any number of threads.
    [checks]: the processor looks at is_shutdown first (SimpleLogProcessor only).
    A step is one access to the flag or one exporter call (made under the mutex,
    respectively assumed atomic).  Simplification: the mutex is never poisoned. *)
Inductive scall :=
| SCheck (wanted : bool)   (* wanted: the span is sampled; always true of log records *)
| SExport
| SDone (exported : bool)
| DStore | DExporter | DDone.
Inductive xentry := XExport (i : nat) | XShutdown.
Record sstate := mk_s { s_flag : bool; s_calls : list scall; s_log : list xentry }.
Definition s_init : sstate := mk_s false [] [].
Inductive saction := SCall (wanted : bool) | SShutdown | SStep (i : nat).
Definition sstep (checks : bool) (s : sstate) (a : saction) : option sstate :=
  match a with
  | SCall w => Some (mk_s (s_flag s) (s_calls s ++ [SCheck w]) (s_log s))
  | SShutdown => Some (mk_s (s_flag s) (s_calls s ++ [if checks then DStore else DExporter]) (s_log s))
  | SStep i =>
    match nth_error (s_calls s) i with
    | Some (SCheck w) =>
      Some (mk_s (s_flag s) (set_nth i (if w && negb (checks && s_flag s) then SExport else SDone false) (s_calls s)) (s_log s))
    | Some SExport => Some (mk_s (s_flag s) (set_nth i (SDone true) (s_calls s)) (s_log s ++ [XExport i]))
    | Some DStore => Some (mk_s true (set_nth i DExporter (s_calls s)) (s_log s))
    | Some DExporter => Some (mk_s (s_flag s) (set_nth i DDone (s_calls s)) (s_log s ++ [XShutdown]))
    | _ => None
    end
  end.
Fixpoint srun (checks : bool) (s : sstate) (acts : list saction) : option sstate :=
  match acts with
  | [] => Some s
  | a :: acts => match sstep checks s a with Some s' => srun checks s' acts | None => None end
  end.
