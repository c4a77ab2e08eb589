(** Specification vocabulary for the W3C propagator (C13-C16). *)
From Coq Require Import String List NArith Bool.
From Verif Require Import Str TraceModel TraceSpec.
Import ListNotations.
Local Open Scope N_scope.

Definition no_upper (s : str) : Prop := Forall (fun c => ~ (65 <= c <= 90)) s.
Definition no_dash (s : str) : Prop := ~ In 45 s.

(** The header language that extraction really accepts, with the values it reads. *)
Definition accepted_traceparent (h : str) (version tid sid opts : N) : Prop :=
  exists p0 p1 p2 p3 tail,
    trim h = p0 ++ [45] ++ p1 ++ [45] ++ p2 ++ [45] ++ p3 ++ tail /\
    no_dash p0 /\ no_dash p1 /\ no_dash p2 /\ no_dash p3 /\
    (tail = [] \/ tail = [45] \/ (version <> 0 /\ exists r, tail = 45 :: r)) /\
    hex_field p0 version /\ version <= 254 /\
    hex_field p1 tid /\ tid < 2 ^ 128 /\ no_upper p1 /\
    hex_field p2 sid /\ sid < 2 ^ 64 /\ no_upper p2 /\
    hex_field p3 opts /\ opts < 256 /\ (version = 0 -> opts <= 2).

(** The strict version-00 grammar of the W3C recommendation. *)
Definition strict_traceparent (h : str) : Prop :=
  exists p1 p2 p3,
    h = of_string "00-" ++ p1 ++ [45] ++ p2 ++ [45] ++ p3 /\
    Forall lower_hex_char p1 /\ List.length p1 = 32%nat /\
    Forall lower_hex_char p2 /\ List.length p2 = 16%nat /\
    Forall lower_hex_char p3 /\ List.length p3 = 2%nat.

(** What a carrier's trace state header denotes. *)
Definition state_of_header (h : option str) : tstate :=
  match h with
  | Some s => match ts_from_str s with Ok t => t | Err _ => None end
  | None => None
  end.
