(** The periodic metric reader (opentelemetry-sdk/src/metrics/periodic_reader.rs:150-471).

    A transition system whose atomic steps are: a call entering (the message is sent),
    the worker thread receiving a message or timing out, the collection, the start and
    the end of the export, the shutdown of the exporter, the answer, and a call
    returning.  Calls run on any number of threads.

    Simplifications: when the worker times out is left open (a timeout may happen at any
    time the worker waits), so the arithmetic on [remaining_interval] is not modelled;
    the outcome of a collection ([None]: the reader is not registered, the pipeline is
    gone, or [produce] failed; [Some ms]: the scopes collected, see ProduceModel.v), of
    an export and of the exporter's shutdown is chosen by the environment; callbacks that
    never return are the worker taking no step; a failed thread creation is the state
    [WExited].  The [Disconnected] branch is unreachable (the thread owns a clone of the
    reader and hence a sender) and left out. *)
From Coq Require Import List Bool Arith.
From Verif Require Import ProviderModel.
Import ListNotations.

Section periodic.
Context {X : Type}.

(** [Message] (periodic_reader.rs:447-450); the response sender is the call's number. *)
Inductive kind := KFlush | KShutdown.
Inductive source := Timer | Call (k : kind) (c : nat).
Inductive event :=
| ECall (k : kind) (c : nat)                         (* force_flush / shutdown is called *)
| ECollect (src : source) (r : option (list X))
| EExportBegin (ms : list X)
| EExportEnd (ok : bool)
| EExporterShutdown (ok : bool)
| EAnswer (c : nat) (ok : bool)
| EReturn (k : kind) (c : nat) (ok : bool).          (* Ok(()) or an error *)

Inductive worker :=
| WIdle
| WCollect (src : source)
| WExport (src : source) (ms : list X)
| WExporting (src : source)
| WShut (c : nat) (ok : bool)
| WAnswer (k : kind) (c : nat) (ok : bool)
| WExited.
(** A call: waiting for its answer, with the answer if already sent; or over. *)
Inductive cstate := Waiting (k : kind) (ans : option bool) | Over.

Record state := mk { st_queue : list (kind * nat); st_worker : worker; st_calls : list cstate; st_log : list event }.
Definition init : state := mk [] WIdle [] [].

Inductive action :=
| ACall (k : kind) | ATake | ATimeout | ACollect (r : option (list X)) | AExport | AExported (ok : bool)
| AShutExporter (ok : bool) | AAnswer | AReturn (c : nat) | AGiveUp (c : nat).

(** After [collect_and_export] returned [ok] (the three match arms, 178-191, 221-234,
    271-281). *)
Definition after_export (src : source) (ok : bool) : worker :=
  match src with
  | Timer => WIdle
  | Call KFlush c => WAnswer KFlush c ok
  | Call KShutdown c => WShut c ok
  end.

Definition set_answer (c : nat) (ok : bool) (calls : list cstate) : list cstate :=
  match nth_error calls c with
  | Some (Waiting k _) => set_nth c (Waiting k (Some ok)) calls
  | _ => calls                                    (* the caller gave up: send fails *)
  end.

Definition step (s : state) (a : action) : option state :=
  let 'mk q w cs log := s in
  match a, w with
  (* force_flush (408-420), shutdown (433-437): send fails when the thread is gone *)
  | ACall k, WExited =>
      let c := length cs in Some (mk q w (cs ++ [Over]) (log ++ [ECall k c; EReturn k c false]))
  | ACall k, _ =>
      let c := length cs in Some (mk (q ++ [(k, c)]) w (cs ++ [Waiting k None]) (log ++ [ECall k c]))
  (* recv_timeout (176) *)
  | ATake, WIdle => match q with (k, c) :: q => Some (mk q (WCollect (Call k c)) cs log) | [] => None end
  | ATimeout, WIdle => Some (mk q (WCollect Timer) cs log)
  (* collect_and_export (359-397) *)
  | ACollect r, WCollect src =>
      let log := log ++ [ECollect src r] in
      match r with
      | None => Some (mk q (after_export src false) cs log)
      | Some [] => Some (mk q (after_export src true) cs log)
      | Some ms => Some (mk q (WExport src ms) cs log)
      end
  | AExport, WExport src ms => Some (mk q (WExporting src) cs (log ++ [EExportBegin ms]))
  | AExported ok, WExporting src => Some (mk q (after_export src ok) cs (log ++ [EExportEnd ok]))
  (* shutdown: exporter_arc.shutdown() (235-239) *)
  | AShutExporter ok, WShut c ok' => Some (mk q (WAnswer KShutdown c (ok' && ok)) cs (log ++ [EExporterShutdown ok]))
  (* response_sender.send; then the loop goes on, or breaks and drops the receiver with
     the messages still queued (197-212, 249-271) *)
  | AAnswer, WAnswer KFlush c ok => Some (mk q WIdle (set_answer c ok cs) (log ++ [EAnswer c ok]))
  | AAnswer, WAnswer KShutdown c ok => Some (mk [] WExited (set_answer c ok cs) (log ++ [EAnswer c ok]))
  (* the call returns: response_rx.recv (422-431), recv_timeout (439-452); an error when
     the sender was dropped unanswered, which needs the thread to be gone *)
  | AReturn c, _ =>
      match nth_error cs c with
      | Some (Waiting k (Some ok)) => Some (mk q w (set_nth c Over cs) (log ++ [EReturn k c ok]))
      | Some (Waiting k None) =>
          match w with
          | WExited => Some (mk q w (set_nth c Over cs) (log ++ [EReturn k c false]))
          | _ => None
          end
      | _ => None
      end
  (* shutdown gives up after five seconds (446-448); force_flush never does *)
  | AGiveUp c, _ =>
      match nth_error cs c with
      | Some (Waiting KShutdown _) => Some (mk q w (set_nth c Over cs) (log ++ [EReturn KShutdown c false]))
      | _ => None
      end
  | _, _ => None
  end.
Fixpoint run (s : state) (acts : list action) : option state :=
  match acts with
  | [] => Some s
  | a :: acts => match step s a with Some s => run s acts | None => None end
  end.
End periodic.
