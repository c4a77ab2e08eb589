(** The life cycle of a tracer or logger provider shared by many threads:
    opentelemetry-sdk/src/trace/provider.rs, opentelemetry-sdk/src/logs/
    logger_provider.rs, and the check made by the end of a span
    (trace/span.rs:200-239), respectively by [emit] (logs/logger.rs:31-53).

    Processors are numbered [0 .. n-1].  Threads interleave arbitrarily; the
    steps are the accesses to [is_shutdown] and the calls into processors.
    Simplifications: sequentially consistent memory; a handle is anything that
    keeps the inner provider alive (provider clones, tracers/loggers, spans), a
    call needs one, and the last one cannot go while a call is in progress (a
    call borrows it). *)
From Coq Require Import List Arith Bool.
Import ListNotations.

Inductive result := ROk | RFailed | RAlready | RSkipped | RDelivered | RDropped.
Inductive call :=
| Shutting (k : nat)  (* won the compare_exchange; processor k is next *)
| Dropping (k : nat)  (* Drop of the inner provider *)
| Sending (k : nat)   (* on_end / emit: processor k is next *)
| Finished (r : result).
Inductive entry := EShutdown (p : nat) | ESend (i p : nat).

Record pstate := mk_p { p_flag : bool; p_handles : nat; p_calls : list call; p_log : list entry }.
Definition p_init : pstate := mk_p false 1 [] [].

Fixpoint set_nth {A} (i : nat) (x : A) (l : list A) {struct l} : list A :=
  match l, i with
  | [], _ => []
  | _ :: l, O => x :: l
  | y :: l, S i => y :: set_nth i x l
  end.
Definition is_finished (c : call) : bool := match c with Finished _ => true | _ => false end.

Section provider.
(** [n] processors; [ok k] is what processor [k]'s shutdown answers; [checks]
    says whether sending looks at [is_shutdown] first (spans do, logs do not). *)
Variables (n : nat) (ok : nat -> bool) (checks : bool).

(** [shutdown]'s answer (provider.rs:250-265, logger_provider.rs:100-122). *)
Definition answer : result := if forallb ok (seq 0 n) then ROk else RFailed.

Inductive paction := CallShutdown | CallSend | Advance (i : nat) | CloneHandle | DropHandle.

Definition pstep (s : pstate) (a : paction) : option pstate :=
  match a with
  | CallShutdown => (* provider.rs:242-248: compare_exchange *)
    if p_handles s =? 0 then None
    else if p_flag s then Some (mk_p true (p_handles s) (p_calls s ++ [Finished RAlready]) (p_log s))
    else Some (mk_p true (p_handles s) (p_calls s ++ [Shutting 0]) (p_log s))
  | CallSend => (* span.rs:207-211 *)
    if p_handles s =? 0 then None
    else if checks && p_flag s then Some (mk_p (p_flag s) (p_handles s) (p_calls s ++ [Finished RSkipped]) (p_log s))
    else Some (mk_p (p_flag s) (p_handles s) (p_calls s ++ [Sending 0]) (p_log s))
  | Advance i => (* the loops over the processors: provider.rs:117-130, span.rs:219-237 *)
    match nth_error (p_calls s) i with
    | Some (Shutting k) =>
      if k <? n then Some (mk_p (p_flag s) (p_handles s) (set_nth i (Shutting (S k)) (p_calls s)) (p_log s ++ [EShutdown k]))
      else Some (mk_p (p_flag s) (p_handles s) (set_nth i (Finished answer) (p_calls s)) (p_log s))
    | Some (Dropping k) =>
      if k <? n then Some (mk_p (p_flag s) (p_handles s) (set_nth i (Dropping (S k)) (p_calls s)) (p_log s ++ [EShutdown k]))
      else Some (mk_p (p_flag s) (p_handles s) (set_nth i (Finished RDropped) (p_calls s)) (p_log s))
    | Some (Sending k) =>
      if k <? n then Some (mk_p (p_flag s) (p_handles s) (set_nth i (Sending (S k)) (p_calls s)) (p_log s ++ [ESend i k]))
      else Some (mk_p (p_flag s) (p_handles s) (set_nth i (Finished RDelivered) (p_calls s)) (p_log s))
    | _ => None
    end
  | CloneHandle => if p_handles s =? 0 then None else Some (mk_p (p_flag s) (S (p_handles s)) (p_calls s) (p_log s))
  | DropHandle => (* Arc::drop; the last one runs Drop (provider.rs:133-144) *)
    match p_handles s with
    | O => None
    | S O =>
      if forallb is_finished (p_calls s) then
        Some (mk_p (p_flag s) 0 (if p_flag s then p_calls s else p_calls s ++ [Dropping 0]) (p_log s))
      else None
    | S h => Some (mk_p (p_flag s) h (p_calls s) (p_log s))
    end
  end.

Fixpoint prun (s : pstate) (acts : list paction) : option pstate :=
  match acts with
  | [] => Some s
  | a :: acts => match pstep s a with Some s' => prun s' acts | None => None end
  end.

End provider.

(** [force_flush] (provider.rs:226-237): every processor is asked; Ok iff all
    answer Ok. *)
Definition force_flush {P : Type} (flush : P -> bool) (procs : list P) : list P * bool :=
  let asked := map (fun p => (p, flush p)) procs in
  (map fst asked, forallb snd asked).

(** [tracer_with_scope] (provider.rs:278-286, logger_provider.rs:54-71): the
    processors and shutdown flag seen by what the new tracer creates. *)
Definition tracer_of {P : Type} (flag : bool) (procs : list P) : bool * list P :=
  if flag then (true, []) else (flag, procs).
