(** Specification vocabulary for the context properties C01-C04. *)
From Coq Require Import List NArith Bool.
From Verif Require Import ContextModel.
Import ListNotations.

Section spec.
Context {A : Type}.

(** What a user tracks: the guards still alive, oldest first, each with the
    context it attached, and how many guards were ever created. *)
Record world := mk_world { w_next : nat; w_live : list (nat * A) }.

Definition w_init : world := mk_world 0 [].

Definition w_step (w : world) (o : op A) : world :=
  match o with
  | Attach c => mk_world (S (w_next w)) (w_live w ++ [(w_next w, c)])
  | DropGuard g => mk_world (w_next w) (filter (fun e => negb (Nat.eqb (fst e) g)) (w_live w))
  end.

Definition w_run (w : world) (ops : list (op A)) : world := fold_left w_step ops w.

(** The most recently created live guard's context, else the root context. *)
Definition w_current (base : A) (w : world) : A :=
  last (map snd (w_live w)) base.

Definition is_attach (o : op A) : bool := match o with Attach _ => true | _ => false end.
Definition attaches (ops : list (op A)) : nat := length (filter is_attach ops).

(** The same bookkeeping with the nesting limit: a guard's depth is one more
    than the depth of the youngest live guard at its creation; an attach that
    would reach depth 65535 is refused and its guard is inert. *)
Record lworld := mk_lworld { lw_next : nat; lw_live : list (nat * (N * A)) }.

Definition lw_init : lworld := mk_lworld 0 [].

Definition lw_depth (w : lworld) : N := last (map (fun e => fst (snd e)) (lw_live w)) 0%N.

Definition lw_step (w : lworld) (o : op A) : lworld :=
  match o with
  | Attach c =>
      if N.ltb (lw_depth w + 1) 65535
      then mk_lworld (S (lw_next w)) (lw_live w ++ [(lw_next w, ((lw_depth w + 1)%N, c))])
      else mk_lworld (S (lw_next w)) (lw_live w)
  | DropGuard g =>
      mk_lworld (lw_next w) (filter (fun e => negb (Nat.eqb (fst e) g)) (lw_live w))
  end.

Definition lw_run (w : lworld) (ops : list (op A)) : lworld := fold_left lw_step ops w.

Definition lw_current (base : A) (w : lworld) : A :=
  last (map (fun e => snd (snd e)) (lw_live w)) base.

End spec.
Arguments world A : clear implicits.
Arguments lworld A : clear implicits.

(** Derivation chains of contexts (C04). *)
Inductive deriv (S V : Type) :=
| DValue (t : type_id) (v : V)
| DSpan (s : S)
| DSuppress.
Arguments DValue {S V}. Arguments DSpan {S V}. Arguments DSuppress {S V}.

Section deriv_spec.
Context {S V : Type}.

(** Last element of a chain satisfying a partial projection, else a default. *)
Fixpoint last_of {B} (f : deriv S V -> option B) (ds : list (deriv S V)) (d : option B) : option B :=
  match ds with
  | [] => d
  | x :: r => last_of f r (match f x with Some b => Some b | None => d end)
  end.

Definition value_of (t : type_id) (d : deriv S V) : option V :=
  match d with DValue t' v => if N.eqb t' t then Some v else None | _ => None end.
Definition span_of (d : deriv S V) : option S :=
  match d with DSpan s => Some s | _ => None end.
Definition is_suppress (d : deriv S V) : bool :=
  match d with DSuppress => true | _ => false end.

(** One derivation step, in terms of the public constructors. *)
Definition apply_deriv (c : context S V) (d : deriv S V) : context S V :=
  match d with
  | DValue t v => cx_with_value t v c
  | DSpan s => cx_with_span s c
  | DSuppress => cx_with_suppressed c
  end.
End deriv_spec.
