(** The periodic metric reader for async runtimes
    (opentelemetry-sdk/src/metrics/periodic_reader_with_async_runtime.rs:96-440).

    As in PeriodicModel.v, whose message, worker and event types are reused: atomic
    steps of any number of callers and of the worker task.  Simplifications: a timer
    tick may come at any time the worker waits ([stream::select] takes messages and
    ticks in any order); the outcome of a collection, of an export (an export that is
    cut off by the timeout is a failed one) and of the exporter's shutdown is chosen by
    the environment; the lock is never poisoned; the worker's last answer and the
    closing of its channel are one step - a call sent in between is lost with the
    channel, and gets an error just like a call refused by a closed channel. *)
From Coq Require Import List Bool Arith.
From Verif Require Import ProviderModel PeriodicModel.
Import ListNotations.

Section async_reader.
Context {X : Type}.
(** Messages the channel takes: 256 and one more for its sender (line 97,
    [futures_channel::mpsc]). *)
Variable CAP : nat.

Inductive refusal := AlreadyDown | ChannelFull | WorkerGone.
Inductive collected := CErrDown | CErrUnregistered | CResult (r : option (list X)).
(** What is observed: the events of an accepted call and of the worker; a call of
    force_flush or shutdown that fails at once; a call of [collect] by the user. *)
Inductive aevent := Ev (e : @event X) | Refused (k : kind) (why : refusal) | Collected (c : collected).

Record astate := mk_a {
  a_registered : bool; a_down : bool; a_queue : list (kind * nat);
  a_worker : @worker X; a_calls : list cstate; a_log : list aevent }.
Definition a_init : astate := mk_a false false [] WIdle [] [].

Inductive aaction :=
| BRegister | BCall (k : kind) | BCollectCall (r : option (list X)) | BReturn (c : nat)
| BTake | BTick | BCollect (r : option (list X)) | BExport | BExported (ok : bool) | BShutExporter (ok : bool) | BAnswer.

(** [process_message] after [collect_and_export] (268-316). *)
Definition a_after_export (src : source) (ok : bool) : @worker X :=
  match src with
  | Timer => WIdle
  | Call KFlush c => WAnswer KFlush c ok
  | Call KShutdown c => WShut c ok
  end.

Definition a_set_answer (c : nat) (ok : bool) (calls : list cstate) : list cstate :=
  match nth_error calls c with
  | Some (Waiting k _) => set_nth c (Waiting k (Some ok)) calls
  | _ => calls
  end.

Definition is_exited (w : @worker X) : bool := match w with WExited => true | _ => false end.

(** The steps of the worker task, which exists once a pipeline is registered
    (99-118, 233-326). *)
Definition worker_step (s : astate) (a : aaction) : option astate :=
  let 'mk_a g d q w cs log := s in
  match a, w with
  | BTake, WIdle => match q with (k, c) :: q => Some (mk_a g d q (WCollect (Call k c)) cs log) | [] => None end
  | BTick, WIdle => Some (mk_a g d q (WCollect Timer) cs log)
  (* collect (350-375): fails after shutdown; collect_and_export (234-265) *)
  | BCollect r, WCollect src =>
      let r := if d then None else r in
      let log := log ++ [Ev (ECollect src r)] in
      match r with
      | None => Some (mk_a g d q (a_after_export src false) cs log)
      | Some [] => Some (mk_a g d q (a_after_export src true) cs log)
      | Some ms => Some (mk_a g d q (WExport src ms) cs log)
      end
  | BExport, WExport src ms => Some (mk_a g d q (WExporting src) cs (log ++ [Ev (EExportBegin ms)]))
  | BExported ok, WExporting src => Some (mk_a g d q (a_after_export src ok) cs (log ++ [Ev (EExportEnd ok)]))
  (* let _ = self.reader.exporter.shutdown() (302) *)
  | BShutExporter ok, WShut c ok' => Some (mk_a g d q (WAnswer KShutdown c ok') cs (log ++ [Ev (EExporterShutdown ok)]))
  | BAnswer, WAnswer KFlush c ok => Some (mk_a g d q WIdle (a_set_answer c ok cs) (log ++ [Ev (EAnswer c ok)]))
  | BAnswer, WAnswer KShutdown c ok => Some (mk_a g d [] WExited (a_set_answer c ok cs) (log ++ [Ev (EAnswer c ok)]))
  | _, _ => None
  end.

Definition a_step (s : astate) (a : aaction) : option astate :=
  let 'mk_a g d q w cs log := s in
  match a with
  (* register_pipeline (330-348): the worker is spawned the first time *)
  | BRegister => Some (mk_a true d q w cs log)
  (* force_flush (377-396), shutdown_with_timeout (398-413) up to the wait *)
  | BCall k =>
      if d then Some (mk_a g d q w cs (log ++ [Refused k AlreadyDown]))
      else if is_exited w then Some (mk_a g d q w cs (log ++ [Refused k WorkerGone]))
      else if length q <? CAP then
        let c := length cs in Some (mk_a g d (q ++ [(k, c)]) w (cs ++ [Waiting k None]) (log ++ [Ev (ECall k c)]))
      else Some (mk_a g d q w cs (log ++ [Refused k ChannelFull]))
  (* collect (350-375) called by the user *)
  | BCollectCall r =>
      Some (mk_a g d q w cs (log ++ [Collected (if d then CErrDown else if g then CResult r else CErrUnregistered)]))
  (* block_on(receiver) ends with the answer, or with an error when the worker is gone
     (394-396, 414-426); a shutdown that got its answer sets the flag *)
  | BReturn c =>
      match nth_error cs c with
      | Some (Waiting k (Some ok)) =>
          Some (mk_a g (match k with KShutdown => true | KFlush => d end) q w (set_nth c Over cs) (log ++ [Ev (EReturn k c ok)]))
      | Some (Waiting k None) =>
          if is_exited w then Some (mk_a g d q w (set_nth c Over cs) (log ++ [Ev (EReturn k c false)])) else None
      | _ => None
      end
  | _ => if g then worker_step s a else None
  end.
Fixpoint a_run (s : astate) (acts : list aaction) : option astate :=
  match acts with
  | [] => Some s
  | a :: acts => match a_step s a with Some s => a_run s acts | None => None end
  end.
End async_reader.
