(** Using the current context from inside callbacks: the RefCell around the context stack
    of opentelemetry/src/context.rs, the owners of an active span
    (opentelemetry/src/trace/context.rs) and what ends it. *)
From Coq Require Import List NArith Bool Arith.
From Verif Require Import ContextModel.
Import ListNotations.

(** A context is reduced to the span it holds, its [Arc<SynchronizedSpan>]; a span is its
    number.  A [Span] value that is in no context yet is held like one in a context. *)
Definition cx := option nat.

(** What a thread does.  Variables and guards are counted from the newest, 0.
    - [Current]: Context::current, current_with_value, is_current_telemetry_suppressed...
      (context.rs:133-135, 176, 408): a shared borrow for the call; the result goes to a
      new variable.
    - [Map body]: Context::map_current (context.rs:145-147), get_active_span
      (trace/context.rs:362-367), inject and extract (text_map_propagator.rs:26-45): [body]
      runs inside the shared borrow.
    - [Start]: Tracer::start, build and SpanBuilder::start (tracer.rs:134-139, 170-172,
      373-376): samplers and [on_start] of the processors run inside the shared borrow;
      the span goes to a new variable.
    - [Attach v], [Detach g]: Context::attach (context.rs:325-332) moving variable [v], and
      the drop of guard [g] (463-470): exclusive borrows.
    - [Clone v], [DropCx v]: Context::clone and dropping it.
    - [EndSpan v]: cx.span().end() (trace/context.rs:211-224).
    The argument of an attach that fails because the stack is full stays in its variable
    until the warning (context.rs:533-539) is written, and is then dropped.
    All spans are recording, and the provider is not shut down. *)
Inductive op := Current | Map (body : list op) | Start | Attach (v : nat) | Detach (g : nat) | Clone (v : nat) | DropCx (v : nat) | EndSpan (v : nat).

(** [w_shared], [w_excl]: the state of the RefCell.  [w_vars], [w_guards]: what the program
    holds; [None] is moved or dropped.  [w_ended]: the spans given to [on_end], newest
    first.  [w_inside]: whether a callback has been called inside an exclusive borrow. *)
Record world := mk_w { w_stack : cstack cx; w_shared : nat; w_excl : bool; w_vars : list (option cx); w_guards : list (option N);
  w_next : nat; w_ended : list nat; w_inside : bool }.
Definition w_init : world := mk_w (cs_init None) 0 false [] [] 0 [] false.
Inductive result := Done (w : world) | Panic (w : world) | OutOfFuel.
Definition bind (r : result) (f : world -> result) : result := match r with Done w => f w | Panic w => Panic w | OutOfFuel => OutOfFuel end.

Definition set_stack (s : cstack cx) (w : world) : world := mk_w s (w_shared w) (w_excl w) (w_vars w) (w_guards w) (w_next w) (w_ended w) (w_inside w).
Definition set_borrow (n : nat) (b : bool) (w : world) : world := mk_w (w_stack w) n b (w_vars w) (w_guards w) (w_next w) (w_ended w) (w_inside w).
Definition set_vars (l : list (option cx)) (w : world) : world := mk_w (w_stack w) (w_shared w) (w_excl w) l (w_guards w) (w_next w) (w_ended w) (w_inside w).
Definition set_guards (l : list (option N)) (w : world) : world := mk_w (w_stack w) (w_shared w) (w_excl w) (w_vars w) l (w_next w) (w_ended w) (w_inside w).
Definition set_next (n : nat) (w : world) : world := mk_w (w_stack w) (w_shared w) (w_excl w) (w_vars w) (w_guards w) n (w_ended w) (w_inside w).
Definition set_ended (l : list nat) (w : world) : world := mk_w (w_stack w) (w_shared w) (w_excl w) (w_vars w) (w_guards w) (w_next w) l (w_inside w).
Definition note_callback (w : world) : world := mk_w (w_stack w) (w_shared w) (w_excl w) (w_vars w) (w_guards w) (w_next w) (w_ended w) (w_inside w || w_excl w).

(** The owners of a span: the contexts on the stack and those the program holds. *)
Definition holds (s : nat) (c : option cx) : bool := match c with Some (Some t) => Nat.eqb t s | _ => false end.
Definition owned (w : world) (s : nat) : bool := existsb (holds s) (Some (cs_cur (w_stack w)) :: cs_stack (w_stack w) ++ w_vars w).
Definition ended (w : world) (s : nat) : bool := existsb (Nat.eqb s) (w_ended w).

Fixpoint set_at {A} (i : nat) (a : A) (l : list A) : list A :=
  match l, i with [], _ => [] | _ :: l, O => a :: l | x :: l, S i => x :: set_at i a l end.
(** The context [cs_pop_id] lets go of (context.rs:561-588): it is dropped there. *)
Definition popped (s : cstack cx) (pos : N) : cx :=
  if N.eqb pos BASE_POS || N.eqb pos MAX_POS then None
  else
    let len := (N.of_nat (length (cs_stack s)) mod 65536)%N in
    if N.eqb pos len then match skip_none (rev (cs_stack s)) with Some _ :: _ => cs_cur s | _ => None end
    else if N.leb len pos then None
    else match nth_error (cs_stack s) (N.to_nat pos) with Some (Some c) => c | _ => None end.

Section exec.
(** What samplers and processors do when a span starts, what processors do when it ends,
    and what the receiver of the SDK's internal logs does (otel_warn!, a [tracing] event
    that the appender turns into an OpenTelemetry log, for example). *)
Context (on_start on_end on_log : list op).
Section step.
Context (run : list op -> world -> result).
(** ensure_ended_and_exported (sdk/src/trace/span.rs:200-240). *)
Definition end_span (s : nat) (w : world) : result :=
  if ended w s then Done w else run on_end (note_callback (set_ended (s :: w_ended w) w)).
(** Dropping a context: the last owner drops the span, which ends it (span.rs:242-247). *)
Definition drop_cx (c : cx) (w : world) : result :=
  match c with None => Done w | Some s => if owned w s then Done w else end_span s w end.
Definition warn (w : world) : result := run on_log (note_callback w).
(** [RefCell::borrow_mut] and [borrow] with their panics. *)
Definition exclusively (f : world -> result) (w : world) : result :=
  if w_excl w || (0 <? w_shared w) then Panic w else bind (f (set_borrow 0 true w)) (fun w' => Done (set_borrow 0 false w')).
Definition shared (f : world -> result) (w : world) : result :=
  if w_excl w then Panic w else bind (f (set_borrow (S (w_shared w)) false w)) (fun w' => Done (set_borrow (w_shared w) false w')).

Definition drop_var (v : nat) (w : world) : result :=
  match nth_error (w_vars w) v with Some (Some c) => drop_cx c (set_vars (set_at v None (w_vars w)) w) | _ => Done w end.
Definition step (o : op) (w : world) : result :=
  match o with
  | Current => shared (fun w => Done (set_vars (Some (cs_cur (w_stack w)) :: w_vars w) w)) w
  | Map body => shared (run body) w
  | Start => bind (shared (run on_start) w) (fun w => Done (set_next (S (w_next w)) (set_vars (Some (Some (w_next w)) :: w_vars w) w)))
  | Attach v =>
    match nth_error (w_vars w) v with
    | Some (Some c) =>
      exclusively (fun w =>
        let '(s, id) := cs_push (w_stack w) c in
        let w := set_guards (Some id :: w_guards w) (set_stack s w) in
        if N.eqb id MAX_POS then bind (warn w) (fun w' => drop_var (v + (length (w_vars w') - length (w_vars w))) w')
        else Done (set_vars (set_at v None (w_vars w)) w)) w
    | _ => Done w
    end
  | Detach g =>
    match nth_error (w_guards w) g with
    | Some (Some id) =>
      let w := set_guards (set_at g None (w_guards w)) w in
      if N.ltb BASE_POS id && N.ltb id MAX_POS then
        exclusively (fun w =>
          match cs_pop_id (w_stack w) id with
          | None => Panic w
          | Some s => if N.ltb (N.of_nat (length (cs_stack (w_stack w))) mod 65536) id then warn w else drop_cx (popped (w_stack w) id) (set_stack s w)
          end) w
      else Done w
    | _ => Done w
    end
  | Clone v => match nth_error (w_vars w) v with Some (Some c) => Done (set_vars (Some c :: w_vars w) w) | _ => Done w end
  | DropCx v => drop_var v w
  | EndSpan v => match nth_error (w_vars w) v with Some (Some (Some s)) => end_span s w | _ => Done w end
  end.
End step.
(** [OutOfFuel] is a run that has not come to an end yet: callbacks can call each other
    for ever. *)
Fixpoint exec (n : nat) (p : list op) (w : world) : result :=
  match n with
  | O => OutOfFuel
  | S n => match p with [] => Done w | o :: p => bind (step (exec n) o w) (exec n p) end
  end.
End exec.
(** Tracer::in_span (tracer.rs:203-215) whose closure lets go of the context: the copy is
    attached, and the guard is dropped last. *)
Definition in_span (body : list op) : list op := [Start; Clone 0; Attach 0; DropCx 1] ++ body ++ [Detach 0].
(** mark_span_as_active (trace/context.rs:334-337). *)
Definition mark_active : list op := [Start; Attach 0].
