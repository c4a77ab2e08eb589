(** Model of opentelemetry/src/context.rs and context/future_ext.rs. *)
From Coq Require Import List NArith Bool Lia.
From stdpp Require Import base gmap.
Import ListNotations.

(** ** The context value *)

(** Rust [TypeId]; any countable key type would do, [N] is used. *)
Definition type_id := N.

(** [Arc<dyn Any + Sync + Send>] (context.rs:103): a value together with its
    dynamic type, so that [downcast_ref] can be modelled. *)
Record any (V : Type) := mk_any { any_type : type_id; any_val : V }.
Arguments mk_any {V}. Arguments any_type {V}. Arguments any_val {V}.

(** [Context] (context.rs:96-101).  [S] stands for [Arc<SynchronizedSpan>]. *)
Record context (S V : Type) := mk_context {
  cx_span : option S;
  cx_entries : option (gmap type_id (any V));
  cx_suppress : bool }.
Arguments mk_context {S V}. Arguments cx_span {S V}.
Arguments cx_entries {S V}. Arguments cx_suppress {S V}.

Section context.
Context {S V : Type}.
Notation cx := (context S V).

(** [Context::new] / [Context::default] (context.rs:95, 112-114). *)
Definition cx_new : cx := mk_context None None false.

(** [Any::downcast_ref] as used at context.rs:204. *)
Definition downcast (t : type_id) (a : any V) : option V :=
  if N.eqb (any_type a) t then Some (any_val a) else None.

(** [Context::get::<T>] (context.rs:200-205). *)
Definition cx_get (t : type_id) (c : cx) : option V :=
  match cx_entries c with
  | None => None
  | Some m => match m !! t with None => None | Some a => downcast t a end
  end.

(** [Context::with_value::<T>] (context.rs:234-250). *)
Definition cx_with_value (t : type_id) (v : V) (c : cx) : cx :=
  let entries :=
    match cx_entries c with
    | Some m => Some (<[t := mk_any t v]> m)
    | None => Some (<[t := mk_any t v]> (∅ : gmap type_id (any V)))
    end in
  mk_context (cx_span c) entries (cx_suppress c).

(** [Context::with_telemetry_suppressed] (context.rs:342-349). *)
Definition cx_with_suppressed (c : cx) : cx :=
  mk_context (cx_span c) (cx_entries c) true.

(** [Context::with_synchronized_span] (context.rs:421-427), reached from
    [with_span] and [with_remote_span_context] (trace/context.rs:282-300). *)
Definition cx_with_span (s : S) (c : cx) : cx :=
  mk_context (Some s) (cx_entries c) (cx_suppress c).

(** [Context::is_telemetry_suppressed] (context.rs:337-339). *)
Definition cx_is_suppressed (c : cx) : bool := cx_suppress c.

(** [TraceContextExt::has_active_span] (trace/context.rs:294-296). *)
Definition cx_has_active_span (c : cx) : bool :=
  match cx_span c with Some _ => true | None => false end.

End context.

(** ** The per-thread stack *)

(** [ContextStack] (context.rs:505-516), generic in the context type. *)
Record cstack (A : Type) := mk_cstack { cs_cur : A; cs_stack : list (option A) }.
Arguments mk_cstack {A}. Arguments cs_cur {A}. Arguments cs_stack {A}.

(** [BASE_POS], [MAX_POS] (context.rs:519-520). *)
Definition BASE_POS : N := 0.
Definition MAX_POS : N := 65535.

Section stack.
Context {A : Type}.

(** [ContextStack::default] (context.rs:598-606). *)
Definition cs_init (base : A) : cstack A := mk_cstack base [].

(** [ContextStack::push] (context.rs:524-543).  The log call on overflow is
    omitted. *)
Definition cs_push (s : cstack A) (c : A) : cstack A * N :=
  let next_id := (N.of_nat (length (cs_stack s)) + 1)%N in
  if N.ltb next_id MAX_POS
  then (mk_cstack c (cs_stack s ++ [Some (cs_cur s)]), next_id)
  else (s, MAX_POS).

(** The loop at context.rs:566-568, on the reversed vector (last element
    first): drop the leading [None]s. *)
Fixpoint skip_none (l : list (option A)) : list (option A) :=
  match l with
  | None :: t => skip_none t
  | _ => l
  end.

(** [Vec::pop] after the loop (context.rs:572-574), still reversed. *)
Definition restore_top (s : cstack A) (revd : list (option A)) : cstack A :=
  match revd with
  | Some c :: t => mk_cstack c (rev t)
  | None :: t => mk_cstack (cs_cur s) (rev t)
  | [] => mk_cstack (cs_cur s) []
  end.

(** [self.stack[pos] = None] (context.rs:588); [None] models the index panic. *)
Fixpoint set_none (l : list (option A)) (i : nat) : option (list (option A)) :=
  match l, i with
  | [], _ => None
  | _ :: t, O => Some (None :: t)
  | x :: t, S j => match set_none t j with Some t' => Some (x :: t') | None => None end
  end.

(** [ContextStack::pop_id] (context.rs:546-590).  The [as u16] cast of the
    length is explicit.  [None] = panic. *)
Definition cs_pop_id (s : cstack A) (pos : N) : option (cstack A) :=
  if N.eqb pos BASE_POS || N.eqb pos MAX_POS then Some s
  else
    let len := (N.of_nat (length (cs_stack s)) mod 65536)%N in
    if N.eqb pos len then Some (restore_top s (skip_none (rev (cs_stack s))))
    else if N.leb len pos then Some s
    else match set_none (cs_stack s) (N.to_nat pos) with
         | Some st => Some (mk_cstack (cs_cur s) st)
         | None => None
         end.

(** [Drop for ContextGuard] (context.rs:463-470). *)
Definition guard_drop (s : cstack A) (id : N) : option (cstack A) :=
  if N.ltb BASE_POS id && N.ltb id MAX_POS then cs_pop_id s id else Some s.

(** ** A thread: its stack and the guards handed out so far *)

(** Guard number [g] is the [g]-th attach of the thread.  [Some id] is a live
    guard with position [id]; [None] a guard already dropped (Rust's ownership
    makes a second drop impossible). *)
Record thread := mk_thread { th_stack : cstack A; th_guards : list (option N) }.

Inductive op := Attach (c : A) | DropGuard (g : nat).

Definition th_init (base : A) : thread := mk_thread (cs_init base) [].

(** [Context::attach] (context.rs:326-333) and guard drop; [None] = panic. *)
Definition th_step (t : thread) (o : op) : option thread :=
  match o with
  | Attach c =>
      let '(s, id) := cs_push (th_stack t) c in
      Some (mk_thread s (th_guards t ++ [Some id]))
  | DropGuard g =>
      match nth_error (th_guards t) g with
      | Some (Some id) =>
          match guard_drop (th_stack t) id with
          | Some s => Some (mk_thread s (<[g := None]> (th_guards t)))
          | None => None
          end
      | _ => Some t
      end
  end.

Fixpoint th_run (t : thread) (ops : list op) : option thread :=
  match ops with
  | [] => Some t
  | o :: r => match th_step t o with Some t' => th_run t' r | None => None end
  end.

(** [Context::current] (context.rs:133-135). *)
Definition th_current (t : thread) : A := cs_cur (th_stack t).

(** [WithContext::poll] (context/future_ext.rs:13-18; same shape for
    [poll_next], [poll_ready], [start_send], [poll_flush], [poll_close]):
    attach the stored context, run the inner poll (arbitrary attach/drop
    operations [inner]), drop the guard when the function returns.  [seen] is
    the context that is current when the inner poll starts. *)
Definition wc_poll (t : thread) (stored : A) (inner : list op)
  : option (A * thread) :=
  match th_step t (Attach stored) with
  | None => None
  | Some t1 =>
      match th_run t1 inner with
      | None => None
      | Some t2 =>
          match th_step t2 (DropGuard (length (th_guards t))) with
          | None => None
          | Some t3 => Some (th_current t1, t3)
          end
      end
  end.

End stack.
Arguments thread A : clear implicits.
Arguments op A : clear implicits.
