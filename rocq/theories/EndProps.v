(** C151: what the application measures is what a reader is handed. *)
From Coq Require Import String List Bool Arith NArith ZArith Lia.
From Verif Require Import Str InstrModel ProviderModel AttrModel AttrProofs ValueMapModel ValueMapProps SeqModel SeqSpec
  PipelineModel PipelineProps ProduceModel EndModel EndSpec EndProofs.
Import ListNotations.

(** For every sequence of instrument creations, measurements and collections by any
    number of readers, whatever the views, the aggregators, the iteration orders of the
    hash maps and the contents of the buffer: a collection hands out, scope by scope, one
    metric for each stream that has something to report, under the stream's name,
    description and unit, and its points account for exactly the measurements made
    through the instruments feeding the stream - since the reader's last collection for
    delta streams, from the beginning for the others; the reported window starts there
    too and ends at the time of the collection.  The points of observable sums with delta
    temporality show the difference to what was accounted for in the window of the
    reader's collection before.  Instruments with two streams whose names differ only in
    case are excepted, see C114. *)
Theorem C151_exported : forall (Vl A Nv T R : Type) sc_dec (veq : forall x y : Vl, {x = y} + {x <> y})
    (views : list (instrument (kv Vl) -> option stream)) yes srt ord scope_order create update accepts sub pref (res : R) empty_scope
    n (evs : list (@ev Vl A Nv T R)) before recent r obs clock buf,
  sorter_ok srt -> (forall m, pick (ord m) m <> None) -> (forall l sc, In sc (scope_order l) <-> In sc l) ->
  map ev_event evs = before ++ recent -> cut_at r before recent -> r < n -> Forall (coherent views) (creations (before ++ recent)) ->
  let keq := attrs_eq_dec veq in
  let streams := first_requests sc_dec [] (requests views (before ++ recent)) in
  exists rm (start time : config -> T) (pts : config -> list (list (kv Vl) * A)),
    snd (estep sc_dec keq views yes srt ord scope_order create update accepts sub pref res empty_scope
           (erun sc_dec keq views yes srt ord scope_order create update accepts sub pref res empty_scope n evs)
           (mk_ev (Collect r obs) clock buf)) = Some rm /\
    rm_resource rm = res /\
    (forall c, In c streams ->
       points_right sc_dec keq views (sort_and_dedup srt) [(of_string "otel.metric.overflow", yes)] create update accepts sub
         (pref r) r before (recent ++ [Collect r obs]) c (pts c)) /\
    (forall j c, nth_error streams j = Some c -> time c = clock j /\
       started sc_dec views (pref r) r (map (fun e => (ev_event e, ev_clock e)) evs) j c (start c)) /\
    rm_scopes rm = report sc_dec (pref r) start time pts streams (scope_order (map scope_of streams)).
Proof. intros. eapply collect_report; eassumption. Qed.
Print Assumptions C151_exported.

(** So the windows of a delta stream follow each other without gap or overlap, and those
    of the others all start together. *)
Lemma split_twice {X} (a b a' b' : list X) x x' : a ++ x :: b = a' ++ x' :: b' ->
  (a = a' /\ x = x' /\ b = b') \/ (exists m, a' = a ++ x :: m /\ b = m ++ x' :: b') \/ (exists m, a = a' ++ x' :: m /\ b' = m ++ x :: b).
Proof.
  revert a'. induction a as [|y a IH]; intros [|y' a'] E; cbn in E; injection E as -> E.
  - auto.
  - right. left. exists a'. auto.
  - right. right. exists a. auto.
  - destruct (IH a' E) as [(-> & -> & ->)|[(m & -> & ->)|(m & -> & ->)]]; [auto|right; left; exists m; auto|right; right; exists m; auto].
Qed.
Theorem C151_windows : forall (Vl Nv T : Type) sc_dec (views : list (instrument (kv Vl) -> option stream)) p r
    (h : list (@event (kv Vl) (list (kv Vl) * Nv) * (nat -> T))) j c t,
  started sc_dec views p r h j c t ->
  (per_collection p c = true -> forall a x b o, h = a ++ x :: b -> fst x = Collect r o -> In c (streams_of sc_dec views a) ->
     (forall o, ~ In (Collect r o) (map fst b)) -> t = snd x j) /\
  (per_collection p c = false -> forall h' t', started sc_dec views p r (h ++ h') j c t' -> t' = t).
Proof.
  intros Vl Nv T sc_dec views p r h j c t (h1 & e & h2 & Eh & -> & Hin & Hc).
  assert (Mono : forall (a m : list (@event (kv Vl) (list (kv Vl) * Nv) * (nat -> T))), In c (streams_of sc_dec views a) -> In c (streams_of sc_dec views (a ++ m))).
  { intros a m H. unfold streams_of, requests. rewrite map_app, flat_map_app. rewrite first_requests_app. apply in_or_app. left. exact H. }
  split; intros Ep; rewrite Ep in Hc.
  - intros a x b o Ea Ex Hi Hb. destruct Hc as [Hc Hn]. rewrite Eh in Ea. destruct (split_twice _ _ _ _ _ _ Ea) as [(-> & -> & ->)|[(m & -> & ->)|(m & -> & ->)]]; [reflexivity|..].
    + exfalso. apply (Hn o). rewrite map_app. apply in_or_app. right. left. exact Ex.
    + exfalso. destruct Hc as [Hc|(o' & Hc)]; [apply Hc, Mono, Hi|]. apply (Hb o'). rewrite map_app. apply in_or_app. right. left. exact Hc.
  - intros h' t' (h1' & e' & h2' & Eh' & -> & Hin' & Hc'). rewrite Ep in Hc'. rewrite Eh, <- app_assoc in Eh'. cbn [app] in Eh'.
    destruct (split_twice _ _ _ _ _ _ Eh') as [(-> & -> & _)|[(m & -> & _)|(m & -> & _)]]; [reflexivity|..]; exfalso.
    + apply Hc'. replace (h1 ++ e :: m) with ((h1 ++ [e]) ++ m) by now rewrite <- app_assoc. apply Mono, Hin.
    + apply Hc. replace (h1' ++ e' :: m) with ((h1' ++ [e']) ++ m) by now rewrite <- app_assoc. apply Mono, Hin'.
Qed.
Print Assumptions C151_windows.

(** As long as the window has no more sets than the cardinality limit, nothing
    overflows: there is exactly one point per set, and it aggregates the measurements
    of that set, in order. *)
Theorem C151_within_limit : forall (KV A V : Type) (keq : forall x y : list KV, {x = y} + {x <> y}) set same kept overflow (create : A) (update : A -> V -> A) limit w pts,
  accounted keq set same kept overflow create update limit w pts ->
  (forall sets, NoDup sets -> (forall c, In c sets -> exists x, In x w /\ set (fst x) = c) -> length sets <= limit) ->
  NoDup (map (fun p => same (fst p)) pts) /\
  (forall c, (exists x, In x w /\ set (fst x) = c) <-> (exists p, In p pts /\ same (fst p) = c)) /\
  (forall p, In p pts -> snd p = fold_left update (map snd (filter (fun x => if keq (set (fst x)) (same (fst p)) then true else false) w)) create).
Proof.
  intros KV A V keq set same kept overflow create update limit w pts (bk & Ew & Hb & Hn & Hp & Ha) Hlim.
  assert (Hin : forall c x, In (c, x) bk -> In x w) by (intros c x H; rewrite <- Ew; apply (in_map snd) in H; exact H).
  assert (Hown : forall c x, In (c, x) bk -> c = set (fst x)).
  { intros c x H. destruct (Hb c x H) as [E|(_ & others & O1 & O2 & O3 & O4)]; [exact E|]. exfalso.
    assert (L : length (set (fst x) :: others) <= limit); [|cbn in L; lia]. apply Hlim; [constructor; assumption|].
    intros c' [<-|H']; [exists x; split; [eapply Hin, H|reflexivity]|]. destruct (O4 c' H') as (_ & y & Y1 & Y2). exists y. split; [eapply Hin, Y1|exact Y2]. }
  split; [exact Hn|]. split.
  - intros c. split.
    + intros (x & Hx & <-). rewrite <- Ew in Hx. apply in_map_iff in Hx. destruct Hx as ([c x'] & E & Hx). cbn in E. subst x'.
      destruct (Ha c x Hx) as (p & P1 & P2). exists p. split; [exact P1|]. rewrite P2. apply Hown, Hx.
    + intros (p & P1 & <-). destruct (Hp p P1) as ((x & Hx & _) & _). exists x. split; [eapply Hin, Hx|]. symmetry. apply Hown, Hx.
  - intros p P1. destruct (Hp p P1) as (_ & ->). f_equal. rewrite <- Ew. clear -Hown. induction bk as [|[c x] bk IH]; [reflexivity|]. cbn [map filter fst snd].
    rewrite <- (Hown c x (or_introl eq_refl)). specialize (IH (fun c' x' H => Hown c' x' (or_intror H))). destruct (keq c (same (fst p))); cbn [map]; rewrite IH; reflexivity.
Qed.
Print Assumptions C151_within_limit.

(** Observable sums with delta temporality: if attributes are always given in the same
    order (here: the canonical one) and there are no more sets than the limit, there is one point per set observed, which shows what
    was observed last minus what was observed last in the window before.  Without these
    conditions see C113. *)
Theorem C151_observed : forall (Vl A Nv : Type) keq (canonical : list (kv Vl) -> list (kv Vl)) overflow (create : num -> impl -> A) (update : num -> impl -> A -> Nv -> A) sub c w w' prev now pts,
  accounts keq canonical overflow create update c w' prev -> accounts keq canonical overflow create update c w now -> Forall2 (change create sub c prev) now pts ->
  (forall sets w0, w0 = w \/ w0 = w' -> NoDup sets -> (forall s, In s sets -> exists x, In x w0 /\ canonical (kept c (fst x)) = s) -> length sets <= N.to_nat (c_limit c)) ->
  (forall x, In x w \/ In x w' -> canonical (kept c (fst x)) = kept c (fst x)) ->
  let of_set s w0 := map snd (filter (fun x => if keq (kept c (fst x)) s then true else false) w0) in
  let value s w0 := fold_left (update (k_num (c_key c)) (c_impl c)) (of_set s w0) (create (k_num (c_key c)) (c_impl c)) in
  NoDup (map fst pts) /\ (forall s, In s (map fst pts) <-> exists x, In x w /\ kept c (fst x) = s) /\
  forall p, In p pts -> snd p = sub (k_num (c_key c)) (value (fst p) w) (value (fst p) w').
Proof.
  intros Vl A Nv keq canonical overflow create update sub c w w' prev now pts A' Aw Hch Hlim Hcan of_set value.
  assert (G : forall w0 ps, (w0 = w \/ w0 = w') -> accounts keq canonical overflow create update c w0 ps ->
    NoDup (map fst ps) /\ (forall s, In s (map fst ps) <-> exists x, In x w0 /\ kept c (fst x) = s) /\ (forall p, In p ps -> snd p = value (fst p) w0)).
  { intros w0 ps Hw Ha. pose proof Ha as (bk & E1 & _ & N1 & E3 & _). destruct (C151_within_limit _ _ _ _ _ _ _ _ _ _ _ _ _ Ha (fun sets => Hlim sets w0 Hw)) as (W1 & W2 & W3).
    assert (Hc : forall x, In x w0 -> canonical (kept c (fst x)) = kept c (fst x)) by (intros x Hx; apply Hcan; destruct Hw as [<-|<-]; auto).
    assert (Hp : forall p, In p ps -> canonical (fst p) = fst p).
    { intros p Hp. destruct (E3 p Hp) as ((x & Hx & [E|E]) & _); [auto|]. rewrite E. apply Hc. rewrite <- E1. apply (in_map snd) in Hx. exact Hx. }
    split; [|split].
    - rewrite (map_ext_in _ _ ps Hp) in W1. exact W1.
    - intros s. split.
      + intros Hs. apply in_map_iff in Hs. destruct Hs as (p & <- & Hp'). destruct (proj2 (W2 (fst p)) (ex_intro _ p (conj Hp' (Hp p Hp')))) as (x & X1 & X2). exists x. rewrite <- (Hc x X1). auto.
      + intros (x & X1 & <-). destruct (proj1 (W2 (kept c (fst x))) (ex_intro _ x (conj X1 (Hc x X1)))) as (p & P1 & P2). rewrite (Hp p P1) in P2. rewrite <- P2. apply in_map, P1.
    - intros p Hp'. rewrite (W3 p Hp'). unfold value, of_set. f_equal. f_equal. apply filter_ext_in. intros x Hx. rewrite (Hc x Hx), (Hp p Hp'). reflexivity. }
  destruct (G w now (or_introl eq_refl) Aw) as (N1 & N2 & N3). destruct (G w' prev (or_intror eq_refl) A') as (P1 & P2 & P3).
  assert (Ef : map fst pts = map fst now) by (clear -Hch; induction Hch as [|x p now pts [E _] _ IH]; cbn; congruence). rewrite Ef. split; [exact N1|]. split; [exact N2|].
  intros p Hp. assert (Hx : exists x, In x now /\ change create sub c prev x p).
  { clear -Hch Hp. induction Hch as [|x q now pts H _ IH]; [destruct Hp|]. destruct Hp as [->|Hp]; [exists x; split; [left; reflexivity|exact H]|]. destruct (IH Hp) as (y & Y1 & Y2). exists y. split; [right; exact Y1|exact Y2]. }
  destruct Hx as (x & Hx & Ex & Hv). rewrite (N3 x Hx), <- Ex in Hv. destruct Hv as [(v & Hv & ->)|[Hv ->]].
  - pose proof (P3 _ Hv) as E. cbn [fst snd] in E. rewrite E. reflexivity.
  - f_equal. unfold value, of_set. assert (En : filter (fun x => if keq (kept c (fst x)) (fst p) then true else false) w' = []); [|rewrite En; reflexivity].
    destruct (filter _ w') as [|y l] eqn:E; [reflexivity|]. exfalso. assert (Hy : In y (y :: l)) by (left; reflexivity). rewrite <- E in Hy. apply filter_In in Hy. destruct Hy as [Y1 Y2].
    apply Hv, P2. exists y. split; [exact Y1|]. destruct (keq (kept c (fst y)) (fst p)); [assumption|discriminate].
Qed.
Print Assumptions C151_observed.

(** Overflow or not, integer sums add up to everything measured. *)
Theorem C151_nothing_lost : forall (KV : Type) (keq : forall x y : list KV, {x = y} + {x <> y}) set same kept overflow limit (w : list (list KV * Z)) pts,
  accounted keq set same kept overflow 0%Z (fun a v => wrap_u64 (a + v)) limit w pts ->
  wrap_u64 (zsum (map snd pts)) = wrap_u64 (zsum (map snd w)).
Proof.
  intros KV keq set same kept overflow limit w pts (bk & Ew & Hb & Hn & Hp & Ha).
  assert (E : map snd pts = map wrap_u64 (map (fun p => zsum (map (fun b => snd (snd b)) (filter (fun b => if keq (fst b) (same (fst p)) then true else false) bk))) pts)).
  { rewrite map_map. apply map_ext_in. intros p P. destruct (Hp p P) as (_ & ->). apply C42_integer_sums. }
  rewrite E, zsum_wrap. f_equal. clear E.
  pose proof (nodup_partition keq (map (fun p => same (fst p)) pts) (map (fun b => (fst b, snd (snd b))) bk) Hn) as P.
  rewrite !map_map in P. rewrite <- Ew, map_map. cbn [snd] in P. rewrite <- P; [|intros x Hx; apply in_map_iff in Hx; destruct Hx as ([c x'] & <- & Hx); destruct (Ha c x' Hx) as (p & P1 & P2); apply in_map_iff; eauto].
  f_equal. apply map_ext. intros p. f_equal. clear. induction bk as [|b bk IH]; [reflexivity|]. cbn. destruct (keq (fst b) (same (fst p))); cbn; rewrite IH; reflexivity.
Qed.
Print Assumptions C151_nothing_lost.

(** A view keeps only the attribute "k" of instrument "a" and renames it; reader 0 asks
    for delta, reader 1 for cumulative temporality. *)
Section example.
Open Scope string_scope.
Notation at1 k v := ((of_string k : list N, v%Z) : kv Z).
Definition kvz_scope_dec : forall x y : InstrModel.scope (kv Z), {x = y} + {x <> y}.
Proof. assert (forall x y : list N, {x = y} + {x <> y}) by (apply list_eq_dec, N.eq_dec). pose proof Z.eq_dec. repeat decide equality. Defined.
Definition sc1 : InstrModel.scope (kv Z) := mk_scope _ (of_string "lib") None None [].
Definition counter (n : string) : @args (kv Z) := mk_args sc1 U64 KCounter (of_string n) None None None None 0.
Definition v1 (i : instrument (kv Z)) : option stream :=
  if str_eqb (i_name i) (of_string "a") then Some (mk_stream (of_string "total") (of_string "d") [] None (Some [of_string "k" : list N]) (Some 2%N)) else None.
Definition tick (t : nat) (e : @event (kv Z) (list (kv Z) * Z)) : @ev Z Z Z nat nat := mk_ev e (fun j => t + j) (mk_rm 0 []).
Definition obs0 : nat -> nat -> list (list (kv Z) * Z) := fun _ _ => [].
Definition ex_pref (r : nat) : temporality := match r with 0 => Delta | _ => Cumulative end.
Notation est := (estep kvz_scope_dec (attrs_eq_dec Z.eq_dec) [v1] 1%Z isort (fun m => seq 0 (length m)) (nodup kvz_scope_dec)
   (fun _ _ => 0%Z) (fun _ im a v => match im with IPre _ => v | _ => (a + v)%Z end) (fun _ _ => true) (fun _ a b => a - b)%Z ex_pref 9 sc1).
Notation eru := (erun kvz_scope_dec (attrs_eq_dec Z.eq_dec) [v1] 1%Z isort (fun m => seq 0 (length m)) (nodup kvz_scope_dec)
   (fun _ _ => 0%Z) (fun _ im a v => match im with IPre _ => v | _ => (a + v)%Z end) (fun _ _ => true) (fun _ a b => a - b)%Z ex_pref 9 sc1 2).
Definition ex_evs := [tick 1 (Create (counter "a")); tick 2 (Create (counter "b"));
  tick 3 (PipelineModel.Measure 0 ([at1 "k" 1; at1 "z" 5], 10%Z)); tick 4 (PipelineModel.Collect 0 obs0);
  tick 5 (PipelineModel.Measure 0 ([at1 "z" 6; at1 "k" 1], 7%Z)); tick 6 (PipelineModel.Measure 0 ([at1 "k" 2], 1%Z)); tick 7 (PipelineModel.Measure 0 ([at1 "k" 3], 4%Z));
  tick 8 (PipelineModel.Measure 0 ([at1 "z" 3], 2%Z)); tick 9 (PipelineModel.Measure 1 ([at1 "z" 3], 5%Z))].
Example C151_nonvacuous :
  snd (est (eru ex_evs) (tick 20 (PipelineModel.Collect 0 obs0))) =
    Some (mk_rm 9 [mk_sm sc1
      [mk_metric (of_string "total") (of_string "d") [] (U64, MSum (mk_sum [([], 2%Z); ([at1 "k" 1], 7%Z); ([at1 "k" 2], 1%Z); ([at1 "otel.metric.overflow" 1], 4%Z)] 4 20 Delta true));
       mk_metric (of_string "b") [] [] (U64, MSum (mk_sum [([at1 "z" 3], 5%Z)] 5 21 Delta true))]]) /\
  snd (est (eru ex_evs) (tick 20 (PipelineModel.Collect 1 obs0))) =
    Some (mk_rm 9 [mk_sm sc1
      [mk_metric (of_string "total") (of_string "d") [] (U64, MSum (mk_sum [([], 2%Z); ([at1 "k" 1], 17%Z); ([at1 "k" 2], 1%Z); ([at1 "otel.metric.overflow" 1], 4%Z)] 1 20 Cumulative true));
       mk_metric (of_string "b") [] [] (U64, MSum (mk_sum [([at1 "z" 3], 5%Z)] 3 21 Cumulative true))]]) /\
  Forall (coherent [v1]) (creations (map ev_event ex_evs)) /\
  cut_at 0 (map ev_event (firstn 4 ex_evs)) (map ev_event (skipn 4 ex_evs)).
Proof.
  split; [vm_compute; reflexivity|]. split; [vm_compute; reflexivity|]. split.
  - apply Forall_forall. intros a Ha. assert (L : forall s1 s2, In s1 (streams [v1] a) -> In s2 (streams [v1] a) -> s1 = s2).
    { destruct Ha as [<-|[<-|[]]]; intros s1 s2 [<-|[]] [<-|[]]; reflexivity. }
    intros s1 s2 H1 H2 _. rewrite (L s1 s2 H1 H2). auto.
  - split; [right; exists (map ev_event (firstn 3 ex_evs)), obs0; reflexivity|]. cbn. intros o H. repeat (destruct H as [H|H]; [discriminate H|]). destruct H.
Qed.

(** An observable counter and an observable up-down counter, whose callbacks run at each
    collection; reader 0 is told differences of the first, reader 1 totals. *)
Definition observable (k : kind) (n : string) : @args (kv Z) := mk_args sc1 I64 k (of_string n) None None None None 1.
Definition obs1 (x y : Z) : nat -> nat -> list (list (kv Z) * Z) := fun h _ => match h with 0 => [([at1 "k" 1], x); ([], 1%Z)] | _ => [([at1 "k" 1], y)] end.
Definition ex_obs_evs := [tick 1 (Create (observable KObsCounter "c")); tick 2 (Create (observable KObsUpDown "u")); tick 3 (PipelineModel.Collect 0 (obs1 10 5))].
Example C151_observable_nonvacuous :
  snd (est (eru ex_obs_evs) (tick 20 (PipelineModel.Collect 0 (obs1 17 4)))) =
    Some (mk_rm 9 [mk_sm sc1
      [mk_metric (of_string "c") [] [] (I64, MSum (mk_sum [([], 0%Z); ([at1 "k" 1], 7%Z)] 3 20 Delta true));
       mk_metric (of_string "u") [] [] (I64, MSum (mk_sum [([at1 "k" 1], 4%Z)] 3 21 Cumulative false))]]) /\
  snd (est (eru ex_obs_evs) (tick 20 (PipelineModel.Collect 1 (obs1 17 4)))) =
    Some (mk_rm 9 [mk_sm sc1
      [mk_metric (of_string "c") [] [] (I64, MSum (mk_sum [([], 1%Z); ([at1 "k" 1], 17%Z)] 1 20 Cumulative true));
       mk_metric (of_string "u") [] [] (I64, MSum (mk_sum [([at1 "k" 1], 4%Z)] 3 21 Cumulative false))]]).
Proof. split; vm_compute; reflexivity. Qed.
End example.
