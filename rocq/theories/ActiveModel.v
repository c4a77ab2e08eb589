(** The span of a context, used by several threads at once: SynchronizedSpan and SpanRef
    (opentelemetry/src/trace/context.rs), BoxedSpan (opentelemetry/src/global/trace.rs) and
    the default methods of the Span trait (opentelemetry/src/trace/span.rs:36-160), over the
    SDK span of SpanModel. *)
From Coq Require Import List NArith ZArith Bool Arith.
From Verif Require Import Str TraceModel SpanModel.
Import ListNotations.

Section active.
Context {A : Type}.

(** A call on [cx.span()] (context.rs:80-224), with the clock it reads:
    - [CEvent]: add_event and add_event_with_timestamp; [CError]: record_error, whose event
      is named "exception" and has one attribute;
    - [CAttr], [CStatus], [CName]: set_attribute, set_status, update_name;
    - [CAttrs]: set_attributes; the caller's iterator runs while the span is locked, so each
      item says what the iterator does on this span ([body]) and whether it panics before
      it yields the attribute;
    - [CEnd]: end and end_with_timestamp; [CIsRec]: is_recording.
    Simplification: the conversion of a name ([name.into()]), also under the lock, does
    nothing else. *)
Inductive call :=
| CEvent (name : str) (t : Z) (attrs : list A)
| CError (exception : str) (t : Z) (a : A)
| CAttr (a : A)
| CAttrs (items : list item)
| CStatus (s : status)
| CName (n : str)
| CEnd (t : Z)
| CIsRec
with item := Item (body : list call) (panics : bool) (a : A).

(** A span processor: what its on_end (and the exporter it calls at once, for a simple
    processor) does on this span, and whether it panics. *)
Record proc := mk_proc { p_id : nat; p_body : list call; p_panics : bool }.

(** What a thread still has to do.  [ICall] is a whole call on the SpanRef; the others run
    with the span locked. *)
Inductive instr := ICall (c : call) | IOp (o : span_op A) | IObserve | IEnd (t : Z) | IHand (p : nat) (e : exported A) | IPanic | IUnlock.

(** [st_local]: whether there is a span ([inner]) or only a span context (context.rs:24-27,
    35-43).  [st_lock]: the thread that has locked the mutex.  [st_out]: what processors
    were given.  [st_seen]: the answers of is_recording.  [st_hist]: the calls in the order
    in which they got the mutex; it is not part of the code. *)
Record st := mk_st { st_local : bool; st_lock : option nat; st_poison : bool; st_span : span A;
  st_out : list (nat * exported A); st_seen : list (nat * bool); st_hist : list (nat * call); st_code : nat -> list instr }.

Definition upd (f : nat -> list instr) (t : nat) (l : list instr) : nat -> list instr := fun u => if Nat.eqb u t then l else f u.

(** The scope of the tracer, whether its provider is shut down, the processors. *)
Context (scope : str) (down : bool) (procs : list proc).

Definition item_code (i : item) : list instr :=
  match i with Item body panics a => map ICall body ++ (if panics then [IPanic] else []) ++ [IOp (SetAttribute a)] end.
(** What a method of BoxedSpan does with the locked span: every call goes to the same method
    of the span inside (global/trace.rs:70-177); add_event, record_error and set_attributes
    are the default methods (span.rs:50-75, 118-126), two of which ask is_recording first;
    end reads the clock and calls end_with_timestamp (150-152). *)
Definition call_code (rec : bool) (c : call) : list instr :=
  match c with
  | CEvent n t attrs => [IOp (AddEvent n t attrs)]
  | CError e t a => if rec then [IOp (AddEvent e t [a])] else []
  | CAttr a => [IOp (SetAttribute a)]
  | CAttrs items => if rec then flat_map item_code items else []
  | CStatus s => [IOp (SetStatus s)]
  | CName n => [IOp (UpdateName n)]
  | CEnd t => [IEnd t]
  | CIsRec => [IObserve]
  end.
(** on_end of the processors, one after the other (sdk/src/trace/span.rs:219-238). *)
Definition end_code (e : option (exported A)) : list instr :=
  match e with
  | None => []
  | Some e => flat_map (fun p => IHand (p_id p) e :: map ICall (p_body p) ++ (if p_panics p then [IPanic] else [])) procs
  end.

(** A call that does not get the span: there is none (context.rs:62-63), or the mutex is
    poisoned, in which case a message is logged (66-72); is_recording is then false
    (131-137). *)
Definition ignored (t : nat) (c : call) (s : st) : st :=
  mk_st (st_local s) (st_lock s) (st_poison s) (st_span s) (st_out s)
    (match c with CIsRec => st_seen s ++ [(t, false)] | _ => st_seen s end) (st_hist s ++ [(t, c)]) (st_code s).
Definition set_code (t : nat) (l : list instr) (s : st) : st :=
  mk_st (st_local s) (st_lock s) (st_poison s) (st_span s) (st_out s) (st_seen s) (st_hist s) (upd (st_code s) t l).

(** One step of thread [t]; [None] if it has nothing to do or waits for the mutex.  A mutex
    of std is not reentrant: the thread that holds it waits for itself (Mutex::lock may also
    panic then).  A panic unwinds the thread, which unlocks the mutex and poisons it. *)
Definition step (t : nat) (s : st) : option st :=
  match st_code s t with
  | [] => None
  | ICall c :: k =>
    if negb (st_local s) then Some (set_code t k (ignored t c s))
    else match st_lock s with
    | Some _ => None
    | None =>
      if st_poison s then Some (set_code t k (ignored t c s))
      else Some (mk_st true (Some t) false (st_span s) (st_out s) (st_seen s) (st_hist s ++ [(t, c)])
                   (upd (st_code s) t (call_code (is_recording (st_span s)) c ++ IUnlock :: k)))
    end
  | IOp o :: k => Some (mk_st (st_local s) (st_lock s) (st_poison s) (span_apply o (st_span s)) (st_out s) (st_seen s) (st_hist s) (upd (st_code s) t k))
  | IObserve :: k => Some (mk_st (st_local s) (st_lock s) (st_poison s) (st_span s) (st_out s) (st_seen s ++ [(t, is_recording (st_span s))]) (st_hist s) (upd (st_code s) t k))
  | IEnd ts :: k =>
    let (sp, e) := ensure_ended scope down (Some ts) 0 (st_span s) in
    Some (mk_st (st_local s) (st_lock s) (st_poison s) sp (st_out s) (st_seen s) (st_hist s) (upd (st_code s) t (end_code e ++ k)))
  | IHand p e :: k => Some (mk_st (st_local s) (st_lock s) (st_poison s) (st_span s) (st_out s ++ [(p, e)]) (st_seen s) (st_hist s) (upd (st_code s) t k))
  | IPanic :: _ => Some (mk_st (st_local s) None true (st_span s) (st_out s) (st_seen s) (st_hist s) (upd (st_code s) t []))
  | IUnlock :: k => Some (mk_st (st_local s) None (st_poison s) (st_span s) (st_out s) (st_seen s) (st_hist s) (upd (st_code s) t k))
  end.

(** The span [sp] is put in a context that every thread [t] uses as [prog t] says. *)
Definition start (local : bool) (sp : span A) (prog : nat -> list call) : st :=
  mk_st local None false sp [] [] [] (fun t => map ICall (prog t)).
Inductive reach : st -> st -> Prop :=
| reach_refl s : reach s s
| reach_step s s' s'' t : reach s s' -> step t s' = Some s'' -> reach s s''.

(** The last context that holds the span is dropped: the mutex gives the span back whether
    it is poisoned or not, and dropping it ends it (sdk/src/trace/span.rs:242-247). *)
Definition drop_last (now : Z) (s : st) : list (nat * exported A) :=
  st_out s ++ match snd (ensure_ended scope down None now (st_span s)) with Some e => map (fun p => (p_id p, e)) procs | None => [] end.
End active.
Arguments call : clear implicits. Arguments item : clear implicits. Arguments proc : clear implicits.
Arguments instr : clear implicits. Arguments st : clear implicits.
