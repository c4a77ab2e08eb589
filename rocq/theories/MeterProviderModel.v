(** The meter provider (opentelemetry-sdk/src/metrics/meter_provider.rs:34-47, 120-235)
    and the manual reader (opentelemetry-sdk/src/metrics/manual_reader.rs:75-128).

    [SdkMeterProvider::shutdown], its [Drop] and [force_flush] have the shape of
    ProviderModel.v: a flag swapped by the first shutdown, then a loop over the
    pipelines (pipeline.rs:668-703) that asks every reader and collects the errors;
    [force_flush] reads the flag first and then loops.  [ESend i r] is call [i] asking
    reader [r] to flush, [EShutdown r] is reader [r] being shut down. *)
From Coq Require Import List Bool Arith.
From Verif Require Import ProviderModel.
Import ListNotations.

Definition mp_run (readers : nat) (ok : nat -> bool) := prun readers ok true p_init.

Section meters.
(** [Sc]: instrumentation scopes, compared with [InstrumentationScope::eq] (see
    AttrModel.v and the notes on C64). *)
Context {Sc : Type} (sc_eqb : Sc -> Sc -> bool).
(** A meter: the no-op one, or the number of an [Arc<SdkMeter>]. *)
Inductive meter := Noop | Sdk (id : nat).
Record mp := mk_mp { mp_shutdown : bool; mp_meters : list (Sc * nat); mp_next : nat }.
Definition mp_init : mp := mk_mp false [] 0.
(** [meter_with_scope] (meter_provider.rs:188-235); lock poisoning left out. *)
Definition meter_with_scope (s : mp) (sc : Sc) : meter * mp :=
  if mp_shutdown s then (Noop, s)
  else match find (fun p => sc_eqb (fst p) sc) (mp_meters s) with
       | Some (_, id) => (Sdk id, s)
       | None => (Sdk (mp_next s), mk_mp (mp_shutdown s) ((sc, mp_next s) :: mp_meters s) (S (mp_next s)))
       end.
Inductive mp_event := GetMeter (sc : Sc) | Shut.
Definition mp_step (s : mp) (e : mp_event) : option meter * mp :=
  match e with
  | GetMeter sc => let '(m, s) := meter_with_scope s sc in (Some m, s)
  | Shut => (None, mk_mp true (mp_meters s) (mp_next s))
  end.
Fixpoint mp_events (s : mp) (es : list mp_event) : list (option meter) :=
  match es with
  | [] => []
  | e :: es => let '(m, s) := mp_step s e in m :: mp_events s es
  end.
End meters.

(** [ManualReader]: its producer (a weak reference to the pipeline, [alive] says whether
    it can be upgraded) and [is_shutdown]. *)
Section manual.
Context {Pipe : Type} (alive : Pipe -> bool).
Record manual := mk_manual { mr_producer : option Pipe; mr_down : bool }.
Definition manual_init : manual := mk_manual None false.
Definition manual_register (r : manual) (p : Pipe) : manual :=
  match mr_producer r with None => mk_manual (Some p) (mr_down r) | Some _ => r end.
(** The pipeline whose [produce] is called, [None] for the error. *)
Definition manual_collect (r : manual) : option Pipe :=
  match mr_producer r with Some p => if alive p then Some p else None | None => None end.
Definition manual_shutdown (r : manual) : manual := mk_manual None true.
End manual.
