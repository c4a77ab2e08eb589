(** The aggregation store of a metric stream
    (opentelemetry-sdk/src/metrics/internal/mod.rs:53-233), used by any number of
    measuring threads and one collecting thread. *)
From Coq Require Import List Arith Bool.
From Verif Require Import ProviderModel.
Import ListNotations.

Section valuemap.
(** Attributes are compared as map keys by [keq] (see the Eq/Hash model for
    float values, for which KeyValue's Eq is not Leibniz equality; they are not
    covered here).  [canon] is sort_and_dedup, [overflow] is
    stream_overflow_attributes, [keep] the attribute filter of the view. *)
Context {KV A V : Type}.
Notation attrs := (list KV).
Variable keq : forall x y : attrs, {x = y} + {x <> y}.
Variable canon : attrs -> attrs.
Variable overflow : attrs.
Variable keep : option (KV -> bool).
(** The Aggregator: [create] and [update]; clone_and_reset hands out the state
    and puts [create] in its place (sum.rs:30-36, last_value.rs:36-40,
    histogram.rs:44-47, exponential_histogram.rs:334-338). *)
Variable create : A.
Variable update : A -> V -> A.
Variable limit : nat.
(** Temporality: delta, or anything else (sum.rs:163-166). *)
Variable delta : bool.

(** AttributeSetFilter::apply (aggregate.rs:106-114). *)
Definition filtered (k : attrs) : attrs :=
  match keep with Some f => List.filter f k | None => k end.

(** A HashMap<Vec<KeyValue>, Arc<A>>: keys and tracker addresses. *)
Definition tmap := list (attrs * nat).
Fixpoint lookup (k : attrs) (m : tmap) : option nat :=
  match m with
  | [] => None
  | (k', id) :: m => if keq k' k then Some id else lookup k m
  end.
Definition insert (k : attrs) (id : nat) (m : tmap) : tmap :=
  List.filter (fun e => if keq (fst e) k then false else true) m ++ [(k, id)].

(** ValueMap (mod.rs:53-75); the trackers themselves are in [heap]. *)
Record vmap := mk_vm { heap : list A; trackers : tmap; count : nat; flag : bool; noattr : A }.
Definition vm_new : vmap := mk_vm [] [] 0 false create.

(** Both lookups of [measure] (mod.rs:115-124, 136-139). *)
Definition find (k : attrs) (m : vmap) : option nat :=
  match lookup k (trackers m) with Some id => Some id | None => lookup (canon k) (trackers m) end.
Definition upd (id : nat) (v : V) (m : vmap) : vmap :=
  match nth_error (heap m) id with
  | Some a => mk_vm (set_nth id (update a v) (heap m)) (trackers m) (count m) (flag m) (noattr m)
  | None => m
  end.
(** What [measure] does under the write lock (mod.rs:129-155), with the class of
    points the value went to. *)
Definition write (k : attrs) (v : V) (m : vmap) : vmap * attrs :=
  match find k m with
  | Some id => (upd id v m, canon k)
  | None =>
    if count m <? limit then
      (mk_vm (heap m ++ [update create v])
         (insert (canon k) (length (heap m)) (insert k (length (heap m)) (trackers m)))
         (S (count m)) (flag m) (noattr m), canon k)
    else match lookup overflow (trackers m) with
         | Some id => (upd id v m, overflow)
         | None => (mk_vm (heap m ++ [update create v]) (insert overflow (length (heap m)) (trackers m))
                      (count m) (flag m) (noattr m), overflow)
         end
  end.

(** The duplicate-suppressing iteration (mod.rs:173-178, 203-208): [seen] holds
    tracker addresses. *)
Fixpoint dedup (seen : list nat) (es : tmap) : tmap :=
  match es with
  | [] => []
  | (k, id) :: es => if in_dec Nat.eq_dec id seen then dedup seen es else (k, id) :: dedup (id :: seen) es
  end.
(** A HashMap is iterated in any order: [order] lists positions. *)
Fixpoint nodupb (l : list nat) : bool :=
  match l with
  | [] => true
  | x :: l => negb (existsb (Nat.eqb x) l) && nodupb l
  end.
Definition pick (order : list nat) (m : tmap) : option tmap :=
  if (length order =? length m) && forallb (fun i => i <? length m) order &&
     nodupb order
  then Some (flat_map (fun i => match nth_error m i with Some e => [e] | None => [] end) order)
  else None.

(** ** Threads

    The read-locked part of [measure] (lookup, then update of the tracker found)
    is one step: the map cannot change while the lock is held and the update is
    atomic (integers: fetch_add or store; floats: see the compare-and-swap model;
    histograms: a mutex).  So is the write-locked part, which must wait while the
    collector holds the read lock. *)
Inductive mpc := MNoUpd | MNoFlag | MRead | MWrite | MDone.
Record mcall := mk_call { c_attrs : attrs; c_val : V; c_pc : mpc }.
Definition goto (pc : mpc) (c : mcall) : mcall := mk_call (c_attrs c) (c_val c) pc.

(** Ghost history: measurements in the order of their updates. *)
Record applied := mk_ap { a_call : nat; a_attrs : attrs; a_class : attrs; a_val : V }.
(** A data point; the ghost fields say which part of the history its value was
    taken from. *)
Record point := mk_pt { p_attrs : attrs; p_val : A; p_from : nat; p_upto : nat }.
(** A completed collection; ghost: history length when it began, when it read or
    swapped the map, and when it ended; the history position of the previous
    resets; and which calls had returned when it began. *)
Record out := mk_out { o_start : nat; o_stop : nat; o_mapfrom : nat; o_mapupto : nat; o_nofrom : nat;
                       o_done : list nat; o_pts : list point }.
Inductive cpc := CIdle | CNo | CMap | CIter (rest : tmap).
Record vstate := mk_v {
  v_map : vmap; v_calls : list mcall; v_pc : cpc; v_dest : list point;
  v_start : nat; v_mapupto : nat; v_nofrom : nat; v_done : list nat;
  v_hist : list applied; v_cutno : nat; v_cutmap : nat; v_outs : list out }.
Definition v_init : vstate := mk_v vm_new [] CIdle [] 0 0 0 [] [] 0 0 [].

Inductive vaction :=
| Measure (k : attrs) (v : V)
| MStep (i : nat)
| Collect
| CStep (order : list nat).

Definition is_done (c : mcall) : bool := match c_pc c with MDone => true | _ => false end.
Fixpoint done_calls (i : nat) (l : list mcall) : list nat :=
  match l with
  | [] => []
  | c :: l => (if is_done c then [i] else []) ++ done_calls (S i) l
  end.
Definition now (s : vstate) : nat := length (v_hist s).
Definition set_call (i : nat) (c : mcall) (s : vstate) : vstate :=
  mk_v (v_map s) (set_nth i c (v_calls s)) (v_pc s) (v_dest s) (v_start s) (v_mapupto s) (v_nofrom s) (v_done s) (v_hist s) (v_cutno s) (v_cutmap s) (v_outs s).
Definition apply (i : nat) (c : mcall) (m : vmap) (cls : attrs) (s : vstate) : vstate :=
  mk_v m (v_calls s) (v_pc s) (v_dest s) (v_start s) (v_mapupto s) (v_nofrom s) (v_done s)
    (v_hist s ++ [mk_ap i (c_attrs c) cls (c_val c)]) (v_cutno s) (v_cutmap s) (v_outs s).
Definition locked (s : vstate) : bool := match v_pc s with CIter _ => true | _ => false end.

(** [measure] (mod.rs:103-156). *)
Definition mstep (i : nat) (s : vstate) : option vstate :=
  match nth_error (v_calls s) i with
  | None => None
  | Some c =>
    let m := v_map s in
    match c_pc c with
    | MNoUpd => Some (set_call i (goto MNoFlag c) (apply i c (mk_vm (heap m) (trackers m) (count m) (flag m) (update (noattr m) (c_val c))) [] s))
    | MNoFlag => Some (set_call i (goto MDone c)
                   (mk_v (mk_vm (heap m) (trackers m) (count m) true (noattr m)) (v_calls s) (v_pc s) (v_dest s) (v_start s) (v_mapupto s) (v_nofrom s) (v_done s) (v_hist s) (v_cutno s) (v_cutmap s) (v_outs s)))
    | MRead => match find (c_attrs c) m with
               | Some id => Some (set_call i (goto MDone c) (apply i c (upd id (c_val c) m) (canon (c_attrs c)) s))
               | None => Some (set_call i (goto MWrite c) s)
               end
    | MWrite => if locked s then None
                else let '(m', cls) := write (c_attrs c) (c_val c) m in
                     Some (set_call i (goto MDone c) (apply i c m' cls s))
    | MDone => None
    end
  end.

Definition tracker_point (s : vstate) (e : attrs * nat) : list point :=
  match nth_error (heap (v_map s)) (snd e) with
  | Some a => [mk_pt (fst e) a (v_cutmap s) (now s)]
  | None => []
  end.
Definition finish (m : vmap) (dest : list point) (mapupto cutmap : nat) (s : vstate) : vstate :=
  mk_v m (v_calls s) CIdle [] (v_start s) mapupto (v_nofrom s) (v_done s) (v_hist s) (v_cutno s) cutmap
    (v_outs s ++ [mk_out (v_start s) (now s) (v_cutmap s) mapupto (v_nofrom s) (v_done s) dest]).

(** [collect_readonly] (mod.rs:160-179) and [collect_and_reset] (mod.rs:183-213).
    In the latter, swapping the maps under both write locks and draining the old
    map are one step: no other thread can reach the old map any more. *)
Definition cstep (order : list nat) (s : vstate) : option vstate :=
  let m := v_map s in
  match v_pc s with
  | CIdle => None
  | CNo => let p := mk_pt [] (noattr m) (v_cutno s) (now s) in
           let m' := if delta then mk_vm (heap m) (trackers m) (count m) (flag m) create else m in
           Some (mk_v m' (v_calls s) CMap (v_dest s ++ [p]) (v_start s) (v_mapupto s) (v_nofrom s) (v_done s) (v_hist s)
                   (if delta then now s else v_cutno s) (v_cutmap s) (v_outs s))
  | CMap => match pick order (trackers m) with
            | None => None
            | Some es =>
              if delta then
                Some (finish (mk_vm [] [] 0 (flag m) (noattr m)) (v_dest s ++ flat_map (tracker_point s) (dedup [] es)) (now s) (now s) s)
              else Some (mk_v m (v_calls s) (CIter (dedup [] es)) (v_dest s) (v_start s) (now s) (v_nofrom s) (v_done s) (v_hist s) (v_cutno s) (v_cutmap s) (v_outs s))
            end
  | CIter [] => Some (finish m (v_dest s) (v_mapupto s) (v_cutmap s) s)
  | CIter (e :: rest) =>
    Some (mk_v m (v_calls s) (CIter rest) (v_dest s ++ tracker_point s e) (v_start s) (v_mapupto s) (v_nofrom s) (v_done s) (v_hist s) (v_cutno s) (v_cutmap s) (v_outs s))
  end.

Definition vstep (s : vstate) (a : vaction) : option vstate :=
  match a with
  | Measure k v =>
    let k := filtered k in
    Some (mk_v (v_map s) (v_calls s ++ [mk_call k v (match k with [] => MNoUpd | _ => MRead end)]) (v_pc s) (v_dest s) (v_start s) (v_mapupto s) (v_nofrom s) (v_done s) (v_hist s) (v_cutno s) (v_cutmap s) (v_outs s))
  | MStep i => mstep i s
  | Collect =>
    match v_pc s with
    | CIdle =>
      let m := v_map s in
      Some (mk_v (if delta then mk_vm (heap m) (trackers m) (count m) false (noattr m) else m) (v_calls s)
              (if flag m then CNo else CMap) [] (now s) (v_mapupto s) (v_cutno s) (done_calls 0 (v_calls s)) (v_hist s) (v_cutno s) (v_cutmap s) (v_outs s))
    | _ => None
    end
  | CStep order => cstep order s
  end.
Fixpoint vrun (s : vstate) (acts : list vaction) : option vstate :=
  match acts with
  | [] => Some s
  | a :: acts => match vstep s a with Some s' => vrun s' acts | None => None end
  end.
End valuemap.
