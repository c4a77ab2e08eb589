(** Specification vocabulary for the B3, Jaeger and composite propagators (C17-C21, C68). *)
From Coq Require Import String List Arith NArith Bool.
From stdpp Require Import base gmap.
From Verif Require Import Str TraceModel ContextModel Carrier TraceSpec W3CSpec PropModel.
Import ListNotations.
Local Open Scope N_scope.

(** Bit [i] of a flags byte. *)
Definition sampled_bit (f : N) : bool := N.testbit f 0.
Definition deferred_bit (f : N) : bool := N.testbit f 1.
Definition debug_bit (f : N) : bool := N.testbit f 2.

Definition uses_single (e : b3_encoding) : bool :=
  match e with SingleHeader | SingleAndMultiHeader => true | _ => false end.

(** The flags that come back from a B3 round trip. *)
Definition b3_returned (e : b3_encoding) (f : N) : N :=
  if uses_single e then
    if deferred_bit f then 2 else if debug_bit f then 4 else if sampled_bit f then 1 else 0
  else
    if debug_bit f then 5 else if deferred_bit f then 2 else if sampled_bit f then 1 else 0.

(** B3 identifiers accepted by the code. *)
Definition b3_id (lens : list N) (bound : N) (s : str) (v : N) : Prop :=
  no_upper s /\ In (blen s) lens /\ hex_field s v /\ v < bound.

(** The sampling state texts. *)
Definition b3_state_text (e : b3_encoding) (s : str) (f : N) : Prop :=
  (s = of_string "0" /\ f = 0) \/ (s = of_string "false" /\ f = 0) \/ (s = of_string "1" /\ f = 1) \/
  (s = of_string "true" /\ f = 1 /\ uses_single e = false) \/
  (s = of_string "d" /\ f = 4 /\ uses_single e = true).

(** The single header language: trace id, span id, optional state, optional
    parent; one trailing dash is tolerated. *)
Definition b3_single_text (e : b3_encoding) (h : str) (t s f : N) : Prop :=
  exists p0 p1 more trail,
    h = p0 ++ [45] ++ p1 ++ more ++ trail /\ (trail = [] \/ trail = [45]) /\
    b3_id [16; 32] (2 ^ 128) p0 t /\ b3_id [16] (2 ^ 64) p1 s /\
    ((more = [] /\ f = 2) \/
     (exists p2, more = 45 :: p2 /\ b3_state_text e p2 f) \/
     (exists p2 p3 v, more = 45 :: p2 ++ 45 :: p3 /\ b3_state_text e p2 f /\ b3_id [16] (2 ^ 64) p3 v)).

(** The multiple header form. *)
Definition b3_multi_flags (e : b3_encoding) (c : carrier) (f : N) : Prop :=
  (cr_get B3_DEBUG c = Some (of_string "1") /\ f = 5) \/
  (cr_get B3_DEBUG c = Some (of_string "0") /\ f = 0) \/
  (cr_get B3_DEBUG c <> Some (of_string "0") /\ cr_get B3_DEBUG c <> Some (of_string "1") /\
   ((exists s, cr_get B3_SAMPLED c = Some s /\ b3_state_text e s f) \/
    (cr_get B3_SAMPLED c = None /\ f = 2))).
Definition b3_multi_text (e : b3_encoding) (c : carrier) (t s f : N) : Prop :=
  exists p0 p1, cr_get B3_TRACE c = Some p0 /\ b3_id [16; 32] (2 ^ 128) p0 t /\
    cr_get B3_SPAN c = Some p1 /\ b3_id [16] (2 ^ 64) p1 s /\ b3_multi_flags e c f.

(** Jaeger: flags that come back. *)
Definition jg_returned (f : N) : N :=
  if sampled_bit f then if debug_bit f then 5 else 1 else 0.

(** Decimal fields, as for hexadecimal ones. *)
Definition dec_digit_value (c : char) : option N :=
  if (48 <=? c) && (c <=? 57) then Some (c - 48) else None.
Fixpoint dec_value_rev (s : str) : option N :=
  match s with
  | [] => Some 0
  | c :: r => match dec_digit_value c, dec_value_rev r with
              | Some d, Some v => Some (d + 10 * v)
              | _, _ => None
              end
  end.
Definition dec_value (s : str) : option N := dec_value_rev (rev s).
Definition dec_field (s : str) (v : N) : Prop :=
  exists sign digits, s = sign ++ digits /\ (sign = [] \/ sign = [43]) /\
    digits <> [] /\ dec_value digits = Some v.

(** The Jaeger header text (after decoding "%3A"). *)
Definition jg_text (h : str) (t s f : N) : Prop :=
  exists p0 p1 p2 p3 trail,
    h = p0 ++ [58] ++ p1 ++ [58] ++ p2 ++ [58] ++ p3 ++ trail /\ (trail = [] \/ trail = [58]) /\
    ~ In 58 p2 /\
    hex_field p0 t /\ blen p0 <= 32 /\ t < 2 ^ 128 /\
    ((blen p1 = 16 /\ hex_field p1 s) \/ (blen p1 < 16 /\ hex_value p1 = Some s)) /\ s < 2 ^ 64 /\
    blen p3 <= 2 /\ exists d, dec_field p3 d /\
      f = (if N.testbit d 0 then if N.testbit d 1 then 5 else 1 else 0).

(** [h] with every "%3A" written for ':'. *)
Definition pct_encoded (h h' : str) : Prop :=
  exists ps, h = join [58] ps /\ h' = join (of_string "%3A") ps /\ Forall (fun p => ~ In 37 p) ps.

(** A propagator that only carries the span / only one typed value. *)
Definition span_slot {V : Type} (p : propagator V) (f : carrier -> option span_context) : Prop :=
  forall cx c, pr_extract p cx c = match f c with Some s => cx_with_span s cx | None => cx end.
Definition value_slot {V : Type} (t : type_id) (p : propagator V) (f : carrier -> option V) : Prop :=
  forall cx c, pr_extract p cx c = match f c with Some v => cx_with_value t v cx | None => cx end.

(** Injection touches only the given (lower-case) names. *)
Definition writes_only {V : Type} (p : propagator V) (names : list str) : Prop :=
  forall cx c k, ~ In k names -> pr_inject p cx c !! k = c !! k.
(** What is left under a written name depends only on the context and on what
    was there before. *)
Definition local_writes {V : Type} (p : propagator V) : Prop :=
  forall cx c c' k, c !! k = c' !! k -> pr_inject p cx c !! k = pr_inject p cx c' !! k.
(** Every name written is announced. *)
Definition announces {V : Type} (p : propagator V) : Prop :=
  writes_only p (map to_lower (pr_fields p)).
