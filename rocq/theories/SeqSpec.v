(** What the data points of one collection owe to the measurements of its window. *)
From Coq Require Import List.
Import ListNotations.

Section spec.
Context {KV A V : Type}.
Notation attrs := (list KV).
Variable veq : forall x y : attrs, {x = y} + {x <> y}.
(** [set k]: the attribute set a list [k] of attributes given to a measurement stands
    for in this stream; [same k]: the set a list of attributes of a point stands for. *)
Variable set same : attrs -> attrs.
Variable kept : attrs -> attrs.
Variable overflow : attrs.
Variable create : A.
Variable update : A -> V -> A.
Variable limit : nat.

(** Each measurement of [w] is booked under its own set, or, when [limit] other sets
    occur in [w], under the overflow set; there is one point for each set with
    bookings, it aggregates them in order, and its attributes are those of the set (as
    given or in canonical form). *)
Definition accounted (w : list (attrs * V)) (pts : list (attrs * A)) : Prop :=
  exists booked : list (attrs * (attrs * V)),
    map snd booked = w /\
    (forall c x, In (c, x) booked -> c = set (fst x) \/
       (c = overflow /\ exists others, NoDup others /\ limit <= length others /\ ~ In (set (fst x)) others /\
          forall o, In o others -> o <> [] /\ exists y, In (o, y) booked /\ set (fst y) = o)) /\
    NoDup (map (fun p => same (fst p)) pts) /\
    (forall p, In p pts ->
       (exists x, In (same (fst p), x) booked /\ (fst p = same (fst p) \/ fst p = kept (fst x))) /\
       snd p = fold_left update (map (fun b => snd (snd b)) (filter (fun b => if veq (fst b) (same (fst p)) then true else false) booked)) create) /\
    (forall c x, In (c, x) booked -> exists p, In p pts /\ same (fst p) = c).
End spec.
