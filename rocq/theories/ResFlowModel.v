(** How the resource of a provider reaches its exporters: the builders
    (opentelemetry-sdk/src/trace/provider.rs:405-457,
    opentelemetry-sdk/src/logs/logger_provider.rs:236-272) and [set_resource] of the batch
    processors, which sends a message to the worker
    (opentelemetry-sdk/src/trace/span_processor.rs:386-389, 618-623,
    opentelemetry-sdk/src/logs/batch_log_processor.rs:322-327, 452-454,
    opentelemetry-sdk/src/trace/span_processor_with_async_runtime.rs:160-165, 294-296,
    opentelemetry-sdk/src/logs/log_processor_with_async_runtime.rs:111-116, 202-204).

    The processors are those of BatchModel.v and AsyncModel.v; a state here adds the
    [SetResource] messages, each with the number of other messages ahead of it in the
    control channel, the resource the exporter holds, and the resource it held at each
    export.  Simplification: a waiting [SetResource] message takes no room away from the
    other messages of its channel. *)
From Coq Require Import List Arith Bool.
From Verif Require BatchModel AsyncModel.
Import ListNotations.

(** One message has been taken from the channel. *)
Definition ahead {R} (p : list (nat * R)) : list (nat * R) := map (fun x => (pred (fst x), snd x)) p.

Section threaded.
Import BatchModel.
Context {R : Type}.
Variables (logs : bool) (Q M : nat).

Record xstate := mk_x { x_b : bstate; x_pending : list (nat * R); x_res : R; x_carried : list R }.
Definition x_init (r0 : R) : xstate := mk_x b_init [] r0 [].
Inductive xaction := XSet (r : R) | XDo (a : baction).

(** try_send succeeds (span_processor.rs:620-622, batch_log_processor.rs:324-326). *)
Definition x_room (s : xstate) : bool :=
  negb (exited (b_worker (x_b s))) && (length (b_msgs (x_b s)) + length (x_pending s) <? MESSAGES).
(** [exporter.export] is called in this step of the worker. *)
Definition exports_now (w : wpc) : bool :=
  match w with WExport _ (_ :: _) _ _ _ => true | _ => false end.

Definition xstep (s : xstate) (a : xaction) : option xstate :=
  match a with
  | XSet r =>
    Some (if x_room s then mk_x (x_b s) (x_pending s ++ [(length (b_msgs (x_b s)), r)]) (x_res s) (x_carried s) else s)
  | XDo (WStep ok) =>
    match b_worker (x_b s), x_pending s with
    | WWait, (0, r) :: p => Some (mk_x (x_b s) p r (x_carried s))
    | w, p =>
      match bstep logs Q M (x_b s) (WStep ok) with
      | Some b => Some (mk_x b (match w with WWait => ahead p | _ => p end) (x_res s)
                          (x_carried s ++ if exports_now w then [x_res s] else []))
      | None => None
      end
    end
  | XDo Tick =>
    match x_pending s with
    | [] => match bstep logs Q M (x_b s) Tick with Some b => Some (mk_x b [] (x_res s) (x_carried s)) | None => None end
    | _ => None
    end
  | XDo a =>
    match bstep logs Q M (x_b s) a with
    | Some b => Some (mk_x b (x_pending s) (x_res s) (x_carried s))
    | None => None
    end
  end.
Fixpoint xrun (s : xstate) (acts : list xaction) : option xstate :=
  match acts with
  | [] => Some s
  | a :: acts => match xstep s a with Some s' => xrun s' acts | None => None end
  end.
End threaded.
Arguments xstate : clear implicits.
Arguments xaction : clear implicits.

Section async.
Import AsyncModel.
Context {A R : Type}.
Variables (sampled : A -> bool) (cap maxb : nat) (spans : bool).

Record ystate := mk_y { y_a : @state A; y_pending : list (nat * R); y_res : R; y_carried : list (R * list A) }.
Definition y_init (r0 : R) : ystate := mk_y init [] r0 [].
Inductive yaction := YSet (r : R) | YDo (a : @action A).

Definition y_room (s : ystate) : bool :=
  can_send cap (y_a s) && (length (st_queue (y_a s)) + length (y_pending s) <? cap).
Fixpoint begun (r : R) (es : list (@event A)) : list (R * list A) :=
  match es with
  | [] => []
  | EExportBegin b :: es => (r, b) :: begun r es
  | _ :: es => begun r es
  end.

Definition ystep (s : ystate) (a : yaction) : option ystate :=
  match a with
  | YSet r =>
    Some (if y_room s then mk_y (y_a s) (y_pending s ++ [(length (st_queue (y_a s)), r)]) (y_res s) (y_carried s) else s)
  | YDo a =>
    match a, st_worker (y_a s), y_pending s with
    | ATake, WIdle, (0, r) :: p => Some (mk_y (y_a s) p r (y_carried s))
    | _, _, p =>
      match step sampled cap maxb spans (y_a s) a with
      | Some (b, es) =>
        Some (mk_y b (match a with ATake => ahead p | _ => p end) (y_res s) (y_carried s ++ begun (y_res s) es))
      | None => None
      end
    end
  end.
Fixpoint yrun (s : ystate) (acts : list yaction) : option ystate :=
  match acts with
  | [] => Some s
  | a :: acts => match ystep s a with Some s' => yrun s' acts | None => None end
  end.
End async.
Arguments ystate : clear implicits.
Arguments yaction : clear implicits.

Section build.
Context {R : Type}.
(** [Resource::merge], and [==] of resources. *)
Variables (merge : R -> R -> R) (same : R -> R -> bool).

(** [with_resource] (provider.rs:407-414, logger_provider.rs:240-247). *)
Definition with_resource (o : option R) (r : R) : option R :=
  match o with Some e => Some (merge e r) | None => Some r end.
Definition given (rs : list R) : option R := fold_left with_resource rs None.

(** [TracerProviderBuilder::build] (provider.rs:417-447): what PROVIDER_RESOURCE holds
    afterwards and the resource the processors are given.  [default] is that of [Config]. *)
Definition tracer_build (default : R) (static : option R) (rs : list R) : R * R :=
  let config := match given rs with Some r => r | None => default end in
  let held := match static with Some h => h | None => config end in
  (held, if same held config then held else config).
(** [LoggerProviderBuilder::build] (logger_provider.rs:250-257). *)
Definition logger_build (default : R) (rs : list R) : R :=
  match given rs with Some r => r | None => default end.

(** Tracer providers built one after the other in one process. *)
Fixpoint tracer_builds (default : R) (static : option R) (l : list (list R)) : list R :=
  match l with
  | [] => []
  | rs :: l => let '(h, r) := tracer_build default static rs in r :: tracer_builds default (Some h) l
  end.
End build.
