(** What a reader should be handed by a collection, in terms of the instruments
    created and the measurements made. *)
From Coq Require Import List Bool Arith NArith.
From Verif Require Import Str InstrModel AttrModel PipelineModel PipelineProps ProduceModel SeqSpec.
Import ListNotations.

Section spec.
Context {Vl A Nv T : Type}.
Notation attrs := (list (kv Vl)).
Notation V := (attrs * Nv)%type.
Notation scope := (InstrModel.scope (kv Vl)).
Notation event := (@event (kv Vl) V).
Notation config := (@config (kv Vl)).
Variable sc_dec : forall x y : scope, {x = y} + {x <> y}.
Variable keq : forall x y : attrs, {x = y} + {x <> y}.
Variable views : list (instrument (kv Vl) -> option stream).
Variable canonical : attrs -> attrs.
Variable overflow : attrs.
Variable create : num -> impl -> A.
Variable update : num -> impl -> A -> Nv -> A.
Variable accepts : impl -> Nv -> bool.
Variable sub : num -> A -> A -> A.

(** Streams that start afresh at each collection. *)
Definition per_collection (pref : temporality) (c : config) : bool :=
  match c_impl c with
  | ILast true => true
  | _ => match pref, k_kind (c_key c) with
         | Delta, KUpDown | Delta, KObsUpDown => false
         | Delta, _ => true
         | LowMemory, KCounter | LowMemory, KHistogram => true
         | LowMemory, _ => false
         | Cumulative, _ => false
         end
  end.
(** The attributes a stream keeps. *)
Definition kept (c : config) (k : attrs) : attrs :=
  match c_keys c with
  | None => k
  | Some ks => filter (fun x => existsb (str_eqb (fst x)) ks) k
  end.
(** [before] ends with the reader's last collection, [recent] is what came since. *)
Definition cut_at (r : nat) (before recent : list event) : Prop :=
  (before = [] \/ exists b o, before = b ++ [Collect r o]) /\ forall o, ~ In (Collect r o) recent.
(** The measurements a collection is about. *)
Definition window_of (pref : temporality) (before recent : list event) (c : config) : list V :=
  filter (fun v => accepts (c_impl c) (snd v))
    (map snd (if per_collection pref c then expected sc_dec views (creations before) (c_key c) recent
              else expected sc_dec views [] (c_key c) (before ++ recent))).
Definition precomputed (c : config) : bool := match c_impl c with IPre _ => true | _ => false end.
(** Observable sums with delta temporality: what is observed is a total, the points show
    how much it has changed since the last collection. *)
Definition differences (pref : temporality) (c : config) : bool := precomputed c && per_collection pref c.
(** The measurements the reader's collection before this one was about. *)
Definition window_before (pref : temporality) (r : nat) (before : list event) (c : config) (w : list V) : Prop :=
  (before = [] /\ w = []) \/
  exists b q o, before = b ++ q ++ [Collect r o] /\ cut_at r b q /\ w = window_of pref b (q ++ [Collect r o]) c.
Definition accounts (c : config) (w : list V) (pts : list (attrs * A)) : Prop :=
  accounted keq (fun k => canonical (kept c k)) canonical (kept c) overflow (create (k_num (c_key c)) (c_impl c)) (update (k_num (c_key c)) (c_impl c)) (N.to_nat (c_limit c)) w pts.
(** The difference to a point with the same list of attributes, or to zero. *)
Definition change (c : config) (prev : list (attrs * A)) (x p : attrs * A) : Prop :=
  fst p = fst x /\
  ((exists v, In (fst x, v) prev /\ snd p = sub (k_num (c_key c)) (snd x) v) \/
   (~ In (fst x) (map fst prev) /\ snd p = sub (k_num (c_key c)) (snd x) (create (k_num (c_key c)) (c_impl c)))).
Definition points_right (pref : temporality) (r : nat) (before recent : list event) (c : config) (pts : list (attrs * A)) : Prop :=
  let w := window_of pref before recent c in
  if differences pref c then
    exists w' prev now, window_before pref r before c w' /\ accounts c w' prev /\ accounts c w now /\ Forall2 (change c prev) now pts
  else accounts c w pts.
(** When the window of the [j]th stream [c] starts, in terms of the events and of what
    the clock shows the [j]th stream during each: at the event which first asked for the
    stream, or, for streams that start afresh, at the reader's last collection if that is
    later. *)
Definition streams_of (h : list (event * (nat -> T))) : list config := first_requests sc_dec [] (requests views (map fst h)).
Definition started (pref : temporality) (r : nat) (h : list (event * (nat -> T))) (j : nat) (c : config) (t : T) : Prop :=
  exists h1 e h2, h = h1 ++ e :: h2 /\ t = snd e j /\ In c (streams_of (h1 ++ [e])) /\
    (if per_collection pref c then (~ In c (streams_of h1) \/ exists o, fst e = Collect r o) /\ (forall o, ~ In (Collect r o) (map fst h2))
     else ~ In c (streams_of h1)).
(** The metric a stream with points makes. *)
Definition metric_of (pref : temporality) (start time : T) (c : config) (pts : list (attrs * A)) : @metric T (attrs * A) :=
  let t := if per_collection pref c then Delta else Cumulative in
  mk_metric (c_name c) (c_desc c) (c_unit c)
    (k_num (c_key c),
     match c_impl c with
     | ILast _ => MGauge (mk_gauge pts (Some start) time)
     | ISum mono | IPre mono => MSum (mk_sum pts start time t mono)
     | IHist _ _ _ => MHist (mk_hist pts start time t)
     | IExpo _ _ _ _ => MExpo (mk_hist pts start time t)
     end).
Definition scope_of (c : config) : scope := k_scope (c_key c).
(** The metrics of a scope, in the order of the streams, and the scopes in the order of
    [scs]; those with nothing to report are left out. *)
Definition scope_report (pref : temporality) (start time : config -> T) (pts : config -> list (attrs * A)) (cs : list config) (sc : scope)
    : list (@metric T (attrs * A)) :=
  flat_map (fun c => if sc_dec (scope_of c) sc then
                       match pts c with [] => [] | p => [metric_of pref (start c) (time c) c p] end
                     else []) cs.
Definition report (pref : temporality) (start time : config -> T) (pts : config -> list (attrs * A)) (cs : list config) (scs : list scope)
    : list (@scope_metrics scope T (attrs * A)) :=
  flat_map (fun sc => match scope_report pref start time pts cs sc with [] => [] | ms => [mk_sm sc ms] end) scs.
End spec.
