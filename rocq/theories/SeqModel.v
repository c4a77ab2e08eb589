(** The aggregation store of a metric stream (opentelemetry-sdk/src/metrics/internal/
    mod.rs:53-233) used by one thread at a time: each call as a function of the store.
    These are the runs of the machine of ValueMapModel.v without interleaving (proved in
    SeqProofs.v); ProduceModel.v and PipelineModel.v take them as parameters. *)
From Coq Require Import List Arith Bool.
From Verif Require Import ProviderModel ValueMapModel.
Import ListNotations.

Section seq.
Context {KV A V : Type}.
Notation attrs := (list KV).
Variable keq : forall x y : attrs, {x = y} + {x <> y}.
Variable canon : attrs -> attrs.
Variable overflow : attrs.
Variable keep : option (KV -> bool).
Variable create : A.
Variable update : A -> V -> A.
Variable limit : nat.
(** The iteration order of the hash map. *)
Variable ord : tmap (KV := KV) -> list nat.
Notation vmap := (vmap (KV := KV) (A := A)).

(** [ValueMap::measure] (mod.rs:103-156) after the attribute filter (aggregate.rs:106-114). *)
Definition measure_now (k : attrs) (v : V) (m : vmap) : vmap :=
  match filtered keep k with
  | [] => mk_vm (heap m) (trackers m) (count m) true (update (noattr m) v)
  | k => match find keq canon k m with
         | Some id => upd update id v m
         | None => fst (write keq canon overflow create update limit k v m)
         end
  end.
(** The data points both kinds of collection yield (mod.rs:166-178, 189-208). *)
Definition points_now (m : vmap) : list (attrs * A) :=
  (if flag m then [([], noattr m)] else []) ++
  flat_map (fun e => match nth_error (heap m) (snd e) with Some a => [(fst e, a)] | None => [] end)
    (dedup [] (match pick (ord (trackers m)) (trackers m) with Some es => es | None => [] end)).
(** [collect_readonly] (mod.rs:160-179) and [collect_and_reset] (mod.rs:183-213). *)
Definition readonly_now (m : vmap) : list (attrs * A) := points_now m.
Definition reset_now (m : vmap) : list (attrs * A) * vmap :=
  (points_now m, mk_vm [] [] 0 false (if flag m then create else noattr m)).
End seq.
