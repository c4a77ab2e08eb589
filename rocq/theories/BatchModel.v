(** The batch processors with a dedicated worker thread:
    opentelemetry-sdk/src/trace/span_processor.rs:268-625 (spans) and
    opentelemetry-sdk/src/logs/batch_log_processor.rs:107-544 (log records).
    The two share their structure; [logs] selects where they differ.

    Any number of threads call on_end/emit, force_flush and shutdown while the
    worker runs; a step is one access to shared state (atomic, channel,
    exporter).  An item is named by the index of the call that produced it, so
    that duplication and loss are visible.

    Simplifications: sequentially consistent memory; [mpsc] channels are FIFO
    queues with a capacity; timeouts may strike at any moment a caller waits;
    the timer of the worker may strike whenever there is no message; an export
    succeeds or fails but returns; the [SetResource] message (ResFlowModel.v adds it), the warnings and
    the drop of the processor itself are left out.  usize arithmetic wraps at
    2^64 (as in release builds). *)
From Coq Require Import List Arith ZArith Bool.
From Verif Require Import ProviderModel.
Import ListNotations.

Definition W : Z := (2 ^ 64)%Z.
Definition MESSAGES : nat := 64.

(** Where a call of on_end (span_processor.rs:516-565) or emit
    (batch_log_processor.rs:156-221) is.  [acc]: the item was accepted. *)
Inductive outcome := OAccepted | ODropped | ORejected.
Inductive epc :=
| ECheck                (* spans: load is_shutdown *)
| ESend                 (* try_send to the data channel *)
| EDrop                 (* the channel was full: count it *)
| EInc (acc : bool)     (* current_batch_size.fetch_add *)
| ELoad (acc : bool)    (* export_message_sent.load *)
| ESwap (acc : bool)    (* export_message_sent.swap(true) *)
| EMsg (acc : bool)     (* message_sender.try_send(Export) *)
| EReset (acc : bool)   (* export_message_sent.store(false) *)
| EDone (o : outcome).
(** [e_late] is ghost: the call began after shutdown was signalled (spans) or
    after the worker had gone (logs). *)
Record ecall := mk_e { e_late : bool; e_pc : epc }.

Inductive msg := MExport | MFlush (id : nat) | MShutdown (id : nat).

(** A force_flush or shutdown call.  The three numbers are ghost: how many items
    had been accepted, counted in current_batch_size, and taken from the queue
    when the call began. *)
Inductive res := ROk | RErr | RAlready | RTimeout.
Inductive cpc := CCheck | CSend | CWait | CGot (r : bool) | CDone (r : res).
Record ccall := mk_c { c_shut : bool; c_acc : nat; c_counted : nat; c_pulled : nat; c_pc : cpc }.

(** The worker. *)
Inductive job := JNone | JFlush (id : nat) | JShut (id : nat).
Inductive wpc :=
| WWait                                   (* recv_timeout *)
| WFlag                                   (* export_message_sent.store(false) *)
| WStart (j : job)                        (* enter get_..._and_export *)
| WPull (j : job) (buf : list nat) (target : Z) (total : nat) (r : bool)
| WExport (j : job) (buf : list nat) (target : Z) (total : nat) (r : bool)
| WSub (j : job) (cnt : nat) (target : Z) (total : nat) (r : bool)
| WReply (j : job) (r : bool)
| WExited.

Record bstate := mk_b {
  b_queue : list nat; b_msgs : list msg; b_down : bool; b_dropped : nat;
  b_cbs : Z; b_sent : bool; b_worker : wpc;
  b_exported : list (list nat); b_exporter_shutdowns : nat;
  b_emits : list ecall; b_ctls : list ccall;
  (* ghost *) b_accepted : list nat; b_counted : nat }.

Definition b_init : bstate := mk_b [] [] false 0 0%Z false WWait [] 0 [] [] [] 0.

Definition wbuf (w : wpc) : list nat :=
  match w with WPull _ b _ _ _ | WExport _ b _ _ _ => b | _ => [] end.
Definition exited (w : wpc) : bool := match w with WExited => true | _ => false end.

(** Field updates. *)
Definition set_emit (i : nat) (pc : epc) (s : bstate) : bstate :=
  let emits := match nth_error (b_emits s) i with
               | Some e => set_nth i (mk_e (e_late e) pc) (b_emits s) | None => b_emits s end in
  mk_b (b_queue s) (b_msgs s) (b_down s) (b_dropped s) (b_cbs s) (b_sent s) (b_worker s) (b_exported s)
    (b_exporter_shutdowns s) emits (b_ctls s) (b_accepted s) (b_counted s).
Definition set_ctl (i : nat) (pc : cpc) (s : bstate) : bstate :=
  let ctls := match nth_error (b_ctls s) i with
              | Some c => set_nth i (mk_c (c_shut c) (c_acc c) (c_counted c) (c_pulled c) pc) (b_ctls s) | None => b_ctls s end in
  mk_b (b_queue s) (b_msgs s) (b_down s) (b_dropped s) (b_cbs s) (b_sent s) (b_worker s) (b_exported s)
    (b_exporter_shutdowns s) (b_emits s) ctls (b_accepted s) (b_counted s).
Definition set_worker (w : wpc) (s : bstate) : bstate :=
  mk_b (b_queue s) (b_msgs s) (b_down s) (b_dropped s) (b_cbs s) (b_sent s) w (b_exported s)
    (b_exporter_shutdowns s) (b_emits s) (b_ctls s) (b_accepted s) (b_counted s).
Definition set_queue (q : list nat) (s : bstate) : bstate :=
  mk_b q (b_msgs s) (b_down s) (b_dropped s) (b_cbs s) (b_sent s) (b_worker s) (b_exported s)
    (b_exporter_shutdowns s) (b_emits s) (b_ctls s) (b_accepted s) (b_counted s).
Definition set_msgs (m : list msg) (s : bstate) : bstate :=
  mk_b (b_queue s) m (b_down s) (b_dropped s) (b_cbs s) (b_sent s) (b_worker s) (b_exported s)
    (b_exporter_shutdowns s) (b_emits s) (b_ctls s) (b_accepted s) (b_counted s).
Definition set_down (s : bstate) : bstate :=
  mk_b (b_queue s) (b_msgs s) true (b_dropped s) (b_cbs s) (b_sent s) (b_worker s) (b_exported s)
    (b_exporter_shutdowns s) (b_emits s) (b_ctls s) (b_accepted s) (b_counted s).
Definition set_sent (f : bool) (s : bstate) : bstate :=
  mk_b (b_queue s) (b_msgs s) (b_down s) (b_dropped s) (b_cbs s) f (b_worker s) (b_exported s)
    (b_exporter_shutdowns s) (b_emits s) (b_ctls s) (b_accepted s) (b_counted s).
Definition set_cbs (z : Z) (s : bstate) : bstate :=
  mk_b (b_queue s) (b_msgs s) (b_down s) (b_dropped s) (z mod W)%Z (b_sent s) (b_worker s) (b_exported s)
    (b_exporter_shutdowns s) (b_emits s) (b_ctls s) (b_accepted s) (b_counted s).
Definition count_drop (s : bstate) : bstate :=
  mk_b (b_queue s) (b_msgs s) (b_down s) (S (b_dropped s)) (b_cbs s) (b_sent s) (b_worker s) (b_exported s)
    (b_exporter_shutdowns s) (b_emits s) (b_ctls s) (b_accepted s) (b_counted s).
Definition accept (i : nat) (s : bstate) : bstate :=
  mk_b (b_queue s ++ [i]) (b_msgs s) (b_down s) (b_dropped s) (b_cbs s) (b_sent s) (b_worker s) (b_exported s)
    (b_exporter_shutdowns s) (b_emits s) (b_ctls s) (b_accepted s ++ [i]) (b_counted s).
Definition count_in (acc : bool) (s : bstate) : bstate :=
  mk_b (b_queue s) (b_msgs s) (b_down s) (b_dropped s) (b_cbs s) (b_sent s) (b_worker s) (b_exported s)
    (b_exporter_shutdowns s) (b_emits s) (b_ctls s) (b_accepted s) (if acc then S (b_counted s) else b_counted s).
Definition export (b : list nat) (s : bstate) : bstate :=
  mk_b (b_queue s) (b_msgs s) (b_down s) (b_dropped s) (b_cbs s) (b_sent s) (b_worker s) (b_exported s ++ [b])
    (b_exporter_shutdowns s) (b_emits s) (b_ctls s) (b_accepted s) (b_counted s).
Definition exporter_shutdown (s : bstate) : bstate :=
  mk_b (b_queue s) (b_msgs s) (b_down s) (b_dropped s) (b_cbs s) (b_sent s) (b_worker s) (b_exported s)
    (S (b_exporter_shutdowns s)) (b_emits s) (b_ctls s) (b_accepted s) (b_counted s).

Section batch.
(** [logs]: which processor; [Q]: max_queue_size; [M]: max_export_batch_size. *)
Variables (logs : bool) (Q M : nat).

Definition done (acc : bool) : epc := EDone (if acc then OAccepted else ODropped).

Definition emit_step (i : nat) (s : bstate) : option bstate :=
  match nth_error (b_emits s) i with
  | None => None
  | Some e =>
    match e_pc e with
    | ECheck => (* span_processor.rs:517-524 *)
      Some (set_emit i (if b_down s then EDone ORejected else ESend) s)
    | ESend => (* span_processor.rs:525, batch_log_processor.rs:157-159 *)
      if exited (b_worker s) then Some (set_emit i (if logs then EDone ORejected else EDrop) s)
      else if length (b_queue s) <? Q then Some (accept i (set_emit i (EInc true) s))
      else Some (set_emit i EDrop s)
    | EDrop => (* span_processor.rs:530, batch_log_processor.rs:205 *)
      Some (count_drop (set_emit i (if logs then EDone ODropped else EInc false) s))
    | EInc acc => (* span_processor.rs:537, batch_log_processor.rs:167 *)
      let new := ((b_cbs s + 1) mod W)%Z in
      Some (count_in acc (set_cbs (b_cbs s + 1)
        (set_emit i (if (Z.of_nat M <=? new)%Z then ELoad acc else done acc) s)))
    | ELoad acc => Some (set_emit i (if b_sent s then done acc else ESwap acc) s)
    | ESwap acc => Some (set_sent true (set_emit i (if b_sent s then done acc else EMsg acc) s))
    | EMsg acc =>
      if exited (b_worker s) || (MESSAGES <=? length (b_msgs s)) then Some (set_emit i (EReset acc) s)
      else Some (set_msgs (b_msgs s ++ [MExport]) (set_emit i (done acc) s))
    | EReset acc => Some (set_sent false (set_emit i (done acc) s))
    | EDone _ => None
    end
  end.

(** force_flush (span_processor.rs:568-580, batch_log_processor.rs:223-257) and
    shutdown (span_processor.rs:583-615, batch_log_processor.rs:259-320). *)
Definition ctl_step (i : nat) (s : bstate) : option bstate :=
  match nth_error (b_ctls s) i with
  | None => None
  | Some c =>
    match c_pc c with
    | CCheck => (* spans only: load, respectively swap(true), of is_shutdown *)
      let s' := set_ctl i (if b_down s then CDone RAlready else CSend) s in
      Some (if c_shut c then set_down s' else s')
    | CSend =>
      if exited (b_worker s) then Some (set_ctl i (CDone (if logs then RAlready else RErr)) s)
      else if MESSAGES <=? length (b_msgs s) then Some (set_ctl i (CDone RErr) s)
      else Some (set_msgs (b_msgs s ++ [if c_shut c then MShutdown i else MFlush i]) (set_ctl i CWait s))
    | CGot r =>
      let answer := if c_shut c && logs then ROk else if r then ROk else RErr in
      if c_shut c && negb (exited (b_worker s)) then None (* join *)
      else Some (set_ctl i (CDone answer) s)
    | _ => None
    end
  end.

(** The worker (span_processor.rs:315-415, 452-506; batch_log_processor.rs:342-499,
    514-544).  [ok] is the exporter's answer if this step exports. *)
Definition reply (j : job) (r : bool) (s : bstate) : bstate :=
  match j with
  | JNone => s
  | JFlush id | JShut id =>
    match nth_error (b_ctls s) id with
    | Some c => match c_pc c with CWait => set_ctl id (CGot r) s | _ => s end
    | None => s
    end
  end.
Definition after_job (j : job) : wpc := match j with JShut _ => WExited | _ => WWait end.

Definition worker_step (ok : bool) (s : bstate) : option bstate :=
  match b_worker s with
  | WWait =>
    match b_msgs s with
    | [] => None
    | m :: ms =>
      let w := match m with MExport => WFlag | MFlush i => WStart (JFlush i) | MShutdown i => WStart (JShut i) end in
      Some (set_msgs ms (set_worker w s))
    end
  | WFlag => Some (set_sent false (set_worker (WStart JNone) s))
  | WStart j =>
    if logs then
      (* target = current_batch_size.load; while target > 0 && total < target *)
      Some (set_worker (if (0 <? b_cbs s)%Z then WPull j [] (b_cbs s) 0 true else WReply j true) s)
    else Some (set_worker (WPull j [] 0 0 true) s)
  | WPull j buf target total r =>
    match b_queue s with
    | [] => Some (set_worker (WExport j buf target total r) s)
    | x :: q =>
      let buf := buf ++ [x] in
      Some (set_queue q (set_worker (if length buf =? M then WExport j buf target total r else WPull j buf target total r) s))
    end
  | WExport j buf target total r =>
    match buf with
    | [] => Some (set_worker (WSub j 0 target total true) s)
    | _ => Some (export buf (set_worker (WSub j (length buf) target total ok) s))
    end
  | WSub j cnt target total r =>
    let total := total + cnt in
    let next := if logs && (Z.of_nat total <? target)%Z then WPull j [] target total r else WReply j r in
    Some (set_cbs (b_cbs s - Z.of_nat cnt) (set_worker next s))
  | WReply j r =>
    let s := set_worker (after_job j) (reply j r s) in
    Some (match j with JShut _ => if logs then exporter_shutdown s else s | _ => s end)
  | WExited => None
  end.

Inductive baction :=
| Emit | EStep (i : nat)
| Flush | Shutdown | CStep (i : nat) | CTimeout (i : nat)
| WStep (ok : bool) | Tick.

Definition pulled (s : bstate) : nat := length (concat (b_exported s)) + length (wbuf (b_worker s)).
Definition new_ctl (shut : bool) (s : bstate) : ccall :=
  mk_c shut (length (b_accepted s)) (b_counted s) (pulled s) (if logs then CSend else CCheck).
Definition add_ctl (c : ccall) (s : bstate) : bstate :=
  mk_b (b_queue s) (b_msgs s) (b_down s) (b_dropped s) (b_cbs s) (b_sent s) (b_worker s) (b_exported s)
    (b_exporter_shutdowns s) (b_emits s) (b_ctls s ++ [c]) (b_accepted s) (b_counted s).
Definition add_emit (s : bstate) : bstate :=
  let e := mk_e (if logs then exited (b_worker s) else b_down s) (if logs then ESend else ECheck) in
  mk_b (b_queue s) (b_msgs s) (b_down s) (b_dropped s) (b_cbs s) (b_sent s) (b_worker s) (b_exported s)
    (b_exporter_shutdowns s) (b_emits s ++ [e]) (b_ctls s) (b_accepted s) (b_counted s).

Definition bstep (s : bstate) (a : baction) : option bstate :=
  match a with
  | Emit => Some (add_emit s)
  | EStep i => emit_step i s
  | Flush => Some (add_ctl (new_ctl false s) s)
  | Shutdown => Some (add_ctl (new_ctl true s) s)
  | CStep i => ctl_step i s
  | CTimeout i => (* recv_timeout gives up, or the reply can no longer come *)
    match nth_error (b_ctls s) i with
    | Some c => match c_pc c with CWait => Some (set_ctl i (CDone RTimeout) s) | _ => None end
    | None => None
    end
  | WStep ok => worker_step ok s
  | Tick => match b_worker s, b_msgs s with WWait, [] => Some (set_worker (WStart JNone) s) | _, _ => None end
  end.

Fixpoint brun (s : bstate) (acts : list baction) : option bstate :=
  match acts with
  | [] => Some s
  | a :: acts => match bstep s a with Some s' => brun s' acts | None => None end
  end.
End batch.
