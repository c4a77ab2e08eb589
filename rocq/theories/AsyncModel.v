(** The batch processors that run on an async runtime
    (opentelemetry-sdk/src/trace/span_processor_with_async_runtime.rs:82-394,
    opentelemetry-sdk/src/logs/log_processor_with_async_runtime.rs:41-257).

    A transition system whose atomic steps are: a record being offered, a call to
    force_flush or shutdown entering (the message is sent), the worker task receiving a
    message or a tick of the timer, the end of an export, the answer, the shutdown of the
    exporter, and a call returning.  Calls come from any number of threads.

    Simplifications: when the timer ticks is left open; so is how an export ends (an error
    and the timeout of [export], which abandons the exporter's future, are both [false]);
    a worker that never finishes an export takes no step.  set_resource is left out
    (ResFlowModel.v adds it).  The
    span worker's [export_tasks] hold only futures whose export has already been awaited
    ([flush] 195-226 and [process_message] 231-266 await [export] before they build the
    task), so they never delay or reorder anything and are left out: exports do not
    overlap whatever max_concurrent_exports is.  The stream never ends, because the timer
    does not. *)
From Coq Require Import List Bool Arith.
From Verif Require Import ProviderModel.
Import ListNotations.

Section async.
Context {R : Type}.
(** [span_context.is_sampled()]; constantly true for logs. *)
Variable sampled : R -> bool.
(** max_queue_size, max_export_batch_size, and which of the two processors. *)
Variables cap maxb : nat.
Variable spans : bool.

(** BatchMessage (span 174-184, log 29-39); the response sender is the call's number. *)
Inductive kind := KFlush | KShutdown.
Inductive msg := MRec (r : R) | MCall (k : kind) (c : nat).
Inductive source := Full | Timer | Call (k : kind) (c : nat).
Inductive event :=
| EEmit (r : R) (accepted : bool)
| ECall (k : kind) (c : nat)
| EExportBegin (batch : list R)
| EExportEnd (ok : bool)
| EExporterShutdown
| EAnswer (c : nat) (ok : bool)
| EReturn (k : kind) (c : nat) (ok : bool).

(** [WShut]: about to shut the exporter down, with the answer still to be sent if any. *)
Inductive worker := WIdle | WExporting (src : source) | WAnswer (k : kind) (c : nat) (ok : bool) | WShut (ans : option (nat * bool)) | WExited.
(** A call: waiting for its answer, with the answer if already sent; or over. *)
Inductive cstate := Waiting (k : kind) (ans : option bool) | Over.
Record state := mk { st_queue : list msg; st_buf : list R; st_worker : worker; st_calls : list cstate; st_dropped : nat }.
Definition init : state := mk [] [] WIdle [] 0.

Inductive action := AEmit (r : R) | ACall (k : kind) | ATake | ATick | AExported (ok : bool) | AAnswer | AShut | AReturn (c : nat).

(** try_send: fails when the queue is full or the worker is gone. *)
Definition can_send (s : state) : bool :=
  match st_worker s with WExited => false | _ => length (st_queue s) <? cap end.
(** What follows [export] (span: 196-226, 290-294; log: 163-201). *)
Definition after_export (src : source) (ok : bool) : worker :=
  match src with
  | Full | Timer => WIdle
  | Call KFlush c => WAnswer KFlush c ok
  | Call KShutdown c => if spans then WAnswer KShutdown c ok else WShut (Some (c, ok))
  end.
(** [export] (span 301-319), [export_with_timeout] (log 229-257): nothing to do for an
    empty buffer. *)
Definition export (q : list msg) (buf : list R) (src : source) (cs : list cstate) (d : nat) : state * list event :=
  match buf with
  | [] => (mk q [] (after_export src true) cs d, [])
  | _ => (mk q [] (WExporting src) cs d, [EExportBegin buf])
  end.
Definition set_answer (c : nat) (ok : bool) (calls : list cstate) : list cstate :=
  match nth_error calls c with
  | Some (Waiting k _) => set_nth c (Waiting k (Some ok)) calls
  | _ => calls
  end.

Definition step (s : state) (a : action) : option (state * list event) :=
  let 'mk q buf w cs d := s in
  match a, w with
  (* on_end (span 105-121), emit (log 62-77) *)
  | AEmit r, _ =>
      if sampled r then
        if can_send s then Some (mk (q ++ [MRec r]) buf w cs d, [EEmit r true])
        else Some (mk q buf w cs (S d), [EEmit r false])
      else Some (s, [])
  (* force_flush, shutdown (span 123-158, log 79-109) *)
  | ACall k, _ =>
      let c := length cs in
      if can_send s then Some (mk (q ++ [MCall k c]) buf w (cs ++ [Waiting k None]) d, [ECall k c])
      else Some (mk q buf w (cs ++ [Over]) d, [ECall k c; EReturn k c false])
  (* process_message (span 231-299), the loop (log 140-206) *)
  | ATake, WIdle =>
      match q with
      | [] => None
      | MRec r :: q =>
          let buf := buf ++ [r] in
          if length buf =? maxb then Some (export q buf Full cs d) else Some (mk q buf WIdle cs d, [])
      | MCall k c :: q => Some (export q buf (Call k c) cs d)
      end
  (* the timer's Flush(None) (span 359-361, log 132-134) *)
  | ATick, WIdle => Some (export q buf Timer cs d)
  | AExported ok, WExporting src => Some (mk q buf (after_export src ok) cs d, [EExportEnd ok])
  | AAnswer, WAnswer KFlush c ok => Some (mk q buf WIdle (set_answer c ok cs) d, [EAnswer c ok])
  (* the task ends and drops the receiver with the messages still queued *)
  | AAnswer, WAnswer KShutdown c ok =>
      if spans then Some (mk q buf (WShut None) (set_answer c ok cs) d, [EAnswer c ok])
      else Some (mk [] buf WExited (set_answer c ok cs) d, [EAnswer c ok])
  | AShut, WShut (Some (c, ok)) => Some (mk q buf (WAnswer KShutdown c ok) cs d, [EExporterShutdown])
  | AShut, WShut None => Some (mk [] buf WExited cs d, [EExporterShutdown])
  (* block_on(res_receiver): an error when the sender was dropped unanswered *)
  | AReturn c, _ =>
      match nth_error cs c with
      | Some (Waiting k (Some ok)) => Some (mk q buf w (set_nth c Over cs) d, [EReturn k c ok])
      | Some (Waiting k None) =>
          match w with
          | WExited => Some (mk q buf w (set_nth c Over cs) d, [EReturn k c false])
          | _ => None
          end
      | _ => None
      end
  | _, _ => None
  end.
Fixpoint run (s : state) (acts : list action) : option (state * list event) :=
  match acts with
  | [] => Some (s, [])
  | a :: acts =>
    match step s a with
    | Some (s', es) => match run s' acts with Some (s'', es') => Some (s'', es ++ es') | None => None end
    | None => None
    end
  end.
End async.
