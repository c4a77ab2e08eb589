(** Theorems for C42-C44, C46 and C50: what the data points of a metric stream
    say about the measurements made, for any attribute values, any aggregator,
    any number of threads and every schedule.

    In a state [s], [v_hist s] lists the measurements in the order in which they
    were applied; [o_start o]/[o_stop o] are its lengths when collection [o] began
    and ended; [p_from p]/[p_upto p] delimit the part a point stands for. *)
From Coq Require Import String List Arith NArith ZArith Bool Lia Permutation.
From Verif Require Import Str ProviderModel ProviderProps AttrModel AttrProofs ValueMapModel ValueMapProofs.
Import ListNotations.

Section attributes.
Context {Vl : Type}.
Variable veq : forall x y : Vl, {x = y} + {x <> y}.
Definition attrs_eq_dec : forall x y : list (kv Vl), {x = y} + {x <> y}.
Proof. repeat decide equality. Defined.
End attributes.
Arguments attrs_eq_dec : simpl never.

(** A stream: attribute values [Vl] (with [yes] for [true]), an arbitrary sort, an
    attribute filter, an aggregator, a cardinality limit and a temporality. *)
Section stream.
Context {Vl A V : Type}.
Variable veq : forall x y : Vl, {x = y} + {x <> y}.
Variable yes : Vl.
Variable srt : list (kv Vl) -> list (kv Vl).
Variable keep : option (kv Vl -> bool).
Variable create : A.
Variable update : A -> V -> A.
Variable limit : nat.
Variable delta : bool.
Definition stream_run (acts : list vaction) : option (vstate (KV := kv Vl) (A := A) (V := V)) :=
  vrun (attrs_eq_dec veq) (sort_and_dedup srt) (overflow_attrs yes) keep create update limit delta (v_init create) acts.
(** The values recorded for the attribute set [c]. *)
Definition recorded (c : list (kv Vl)) (h : list (applied (KV := kv Vl) (V := V))) : list V :=
  map (fun e => a_val e) (List.filter (fun e => if attrs_eq_dec veq (a_class e) c then true else false) h).
End stream.

Lemma recorded_vals {Vl V} veq c (h : list (applied (KV := kv Vl) (V := V))) : vals (attrs_eq_dec veq) c h = recorded veq c h.
Proof. unfold recorded, vals. induction h as [|e h IH]; cbn; [reflexivity|]. destruct (attrs_eq_dec veq (a_class e) c); cbn; rewrite IH; reflexivity. Qed.

Lemma stream_inv {Vl A V} veq yes (srt : list (kv Vl) -> list (kv Vl)) keep (create : A) (update : A -> V -> A) limit delta acts s :
  sorter_ok srt -> stream_run veq yes srt keep create update limit delta acts = Some s ->
  vinv (attrs_eq_dec veq) (sort_and_dedup srt) (overflow_attrs yes) create update limit delta s.
Proof.
  intros Hs H. eapply vinv_reach; [| | | |exact H].
  - intros k. apply canon_idem, Hs.
  - intros k. apply canon_nil, Hs.
  - apply canon_single, Hs.
  - discriminate.
Qed.

(** Which measurements belong together: attribute lists are one set if they are
    the same up to order; repeated keys keep one of their values; a set with no
    attributes stands alone. *)
Theorem C42_attribute_sets : forall Vl (srt : list (kv Vl) -> list (kv Vl)), sorter_ok srt ->
  (forall a b, NoDup (map fst a) -> NoDup (map fst b) -> (sort_and_dedup srt a = sort_and_dedup srt b <-> Permutation a b)) /\
  (forall a, NoDup (map fst (sort_and_dedup srt a)) /\ (forall x, In x (sort_and_dedup srt a) -> In x a) /\
     (forall x, In x a -> In (fst x) (map fst (sort_and_dedup srt a)))) /\
  (forall a, sort_and_dedup srt a = [] <-> a = []).
Proof.
  intros Vl srt Hs. split; [intros a b; apply canon_perm, Hs|]. split; [|intros a; apply canon_nil, Hs].
  intros a. split; [apply strict_keys, canon_strict, Hs|]. split; [intros x; apply canon_sub, Hs|intros x; apply canon_keys, Hs].
Qed.
Print Assumptions C42_attribute_sets.

(** Every measurement is applied exactly once, with the value given, and to its
    own attribute set or to the overflow set. *)
Theorem C42_C43_applied_once : forall Vl A V veq yes srt keep (create : A) (update : A -> V -> A) limit delta acts s,
  sorter_ok (Vl := Vl) srt -> stream_run veq yes srt keep create update limit delta acts = Some s ->
  NoDup (map (@a_call _ _) (v_hist s)) /\
  (forall e, In e (v_hist s) -> exists c, nth_error (v_calls s) (a_call e) = Some c /\ c_attrs c = a_attrs e /\ c_val c = a_val e /\
     (a_class e = sort_and_dedup srt (a_attrs e) \/ (a_attrs e <> [] /\ a_class e = [(of_string "otel.metric.overflow"%string, yes)]))) /\
  (forall i c, nth_error (v_calls s) i = Some c -> c_pc c = MDone -> exists e, In e (v_hist s) /\ a_call e = i).
Proof.
  intros Vl A V veq yes srt keep create update limit delta acts s Hs H. pose proof (stream_inv _ _ _ _ _ _ _ _ _ _ Hs H) as I.
  split; [apply I|]. split.
  - intros e He. destruct (vi_hist _ _ _ _ _ _ _ _ I _ He) as (c & H1 & H2 & H3 & _). exists c. repeat split; auto.
    destruct (vi_cls _ _ _ _ _ _ _ _ I _ He) as [[E1 E2]|[E1 [E2|E2]]]; auto. left. rewrite E1, E2. symmetry. apply canon_nil; auto.
  - intros i c Hi Hd. destruct (proj1 (in_map_iff _ _ _) (proj2 (vi_calls _ _ _ _ _ _ _ _ I _ _ Hi) ltac:(unfold has_applied; rewrite Hd; reflexivity))) as (e & E1 & E2). eauto.
Qed.
Print Assumptions C42_C43_applied_once.
(** The attributes of call i are those given, filtered. *)
Theorem C42_filter : forall Vl A V veq yes srt keep (create : A) (update : A -> V -> A) limit delta s (k : list (kv Vl)) v s',
  vstep (attrs_eq_dec veq) (sort_and_dedup srt) (overflow_attrs yes) keep create update limit delta s (Measure k v) = Some s' ->
  exists c, nth_error (v_calls s') (length (v_calls s)) = Some c /\ c_val c = v /\
  c_attrs c = match keep with Some f => filter f k | None => k end.
Proof. intros. cbn in H. injection H as <-. eexists. cbn [v_calls]. rewrite nth_snoc_new. repeat split; reflexivity. Qed.
Print Assumptions C42_filter.

(** Cumulative collection: one point per set, whose value aggregates, in order,
    all measurements of that set up to a moment during the collection. *)
Theorem C42_cumulative : forall Vl A V veq yes srt keep (create : A) (update : A -> V -> A) limit acts s o,
  sorter_ok (Vl := Vl) srt -> stream_run veq yes srt keep create update limit false acts = Some s -> In o (v_outs s) ->
  NoDup (map (fun p => sort_and_dedup srt (p_attrs p)) (o_pts o)) /\
  (forall p, In p (o_pts o) -> exists n, o_start o <= n <= o_stop o /\
     p_val p = fold_left update (recorded veq (sort_and_dedup srt (p_attrs p)) (firstn n (v_hist s))) create) /\
  (* sets measured before are all there; a set without attributes once the call has returned *)
  (forall e, In e (firstn (o_start o) (v_hist s)) -> a_class e <> [] \/ In (a_call e) (o_done o) ->
     exists p, In p (o_pts o) /\ sort_and_dedup srt (p_attrs p) = a_class e).
Proof.
  intros Vl A V veq yes srt keep create update limit acts s o Hs H Ho. pose proof (stream_inv _ _ _ _ _ _ _ _ _ _ Hs H) as I.
  assert (O := proj1 (Forall_forall _ _) (vi_outs _ _ _ _ _ _ _ _ I) o Ho).
  assert (Z : o_mapfrom o = 0 /\ o_nofrom o = 0).
  { clear O I. revert s H Ho. unfold stream_run.
    assert (G : forall acts s0 s, v_cutmap s0 = 0 -> v_cutno s0 = 0 -> (v_pc s0 <> CIdle -> v_nofrom s0 = 0) -> (forall o, In o (v_outs s0) -> o_mapfrom o = 0 /\ o_nofrom o = 0) ->
      vrun (attrs_eq_dec veq) (sort_and_dedup srt) (overflow_attrs yes) keep create update limit false s0 acts = Some s -> forall o, In o (v_outs s) -> o_mapfrom o = 0 /\ o_nofrom o = 0).
    { clear. induction acts as [|a acts IH]; intros s0 s E1 E2 E3 E4 H; cbn [vrun] in H; [injection H as <-; exact E4|].
      destruct (vstep _ _ _ _ _ _ _ _ s0 a) as [s1|] eqn:E; [|discriminate].
      assert (G : v_cutmap s1 = 0 /\ v_cutno s1 = 0 /\ (v_pc s1 <> CIdle -> v_nofrom s1 = 0) /\ forall o, In o (v_outs s1) -> o_mapfrom o = 0 /\ o_nofrom o = 0); [|destruct G as (G1 & G2 & G3 & G4); eapply IH; eauto].
      destruct a as [k v|i| |order]; cbn [vstep] in E.
      - injection E as <-. auto.
      - unfold mstep in E. destruct (nth_error (v_calls s0) i) as [c|]; [|discriminate]. destruct (c_pc c); try discriminate.
        + injection E as <-. auto.
        + injection E as <-. auto.
        + destruct (find _ _ _ _); injection E as <-; auto.
        + destruct (locked s0); [discriminate|]. destruct (write _ _ _ _ _ _ _ _ _); injection E as <-; auto.
      - destruct (v_pc s0); try discriminate. injection E as <-. auto.
      - unfold cstep in E. destruct (v_pc s0) as [| | |[|e0 rest]] eqn:Ep; try discriminate.
        + injection E as <-. cbn. repeat split; auto; [intros _; apply E3; discriminate|apply E4, H0|apply E4, H0].
        + destruct (pick _ _); [|discriminate]. injection E as <-. cbn. repeat split; auto; [intros _; apply E3; discriminate|apply E4, H0|apply E4, H0].
        + injection E as <-. cbn. split; [auto|]. split; [auto|]. split; [intros X; contradiction|]. intros o Ho. apply in_app_or in Ho. destruct Ho as [Ho|[<-|[]]]; [apply E4, Ho|]. cbn. split; [auto|]. apply E3. discriminate.
        + injection E as <-. cbn. repeat split; auto; [intros _; apply E3; discriminate|apply E4, H0|apply E4, H0]. }
    intros s H Ho. eapply G; [| | | |exact H|exact Ho]; cbn; auto; contradiction. }
  destruct Z as [Z1 Z2]. split; [apply O|]. split.
  - intros p Hp. destruct (oo_pts _ _ _ _ _ _ _ _ O p Hp) as ([X1 X2] & X3 & X4 & X5). exists (p_upto p). split; [exact X3|].
    assert (E : p_from p = 0) by (destruct (p_attrs p) eqn:Ea; [rewrite X4 by reflexivity; exact Z2|destruct X5 as (X5 & _); [discriminate|congruence]]).
    rewrite X2. unfold agg, window. rewrite E. cbn [skipn]. rewrite recorded_vals. reflexivity.
  - intros e He Hc. destruct (oo_time _ _ _ _ _ _ _ _ O) as (T1 & T2 & T3 & T4).
    destruct (attrs_eq_dec veq (a_class e) []) as [E|E].
    + destruct Hc as [Hc|Hc]; [contradiction|]. destruct (oo_no _ _ _ _ _ _ _ _ O e) as (p & P1 & P2); auto.
      { unfold window. rewrite Z2. exact He. } exists p. split; [exact P1|]. rewrite P2, E. apply canon_nil; auto.
    + apply (oo_all _ _ _ _ _ _ _ _ O e); [|exact E]. unfold window. rewrite Z1. cbn [skipn]. rewrite <- (firstn_skipn (o_start o) (firstn (o_mapupto o) (v_hist s))).
      apply in_or_app. left. rewrite firstn_firstn. rewrite Nat.min_l by lia. exact He.
Qed.
Print Assumptions C42_cumulative.

(** Integer sums wrap at 2^64; the value reported is the sum of the measurements
    of the set modulo 2^64 (u64), or its two's complement reading (i64). *)
Definition wrap_u64 (z : Z) : Z := z mod 2 ^ 64.
Definition wrap_i64 (z : Z) : Z := (z + 2 ^ 63) mod 2 ^ 64 - 2 ^ 63.
Definition zsum (l : list Z) : Z := fold_right Z.add 0%Z l.
Lemma wrap_u64_add a b : wrap_u64 (wrap_u64 a + b) = wrap_u64 (a + b).
Proof. unfold wrap_u64. apply Z.add_mod_idemp_l. discriminate. Qed.
Lemma wrap_i64_add a b : wrap_i64 (wrap_i64 a + b) = wrap_i64 (a + b).
Proof.
  unfold wrap_i64. f_equal. replace ((a + 2 ^ 63) mod 2 ^ 64 - 2 ^ 63 + b + 2 ^ 63)%Z with ((a + 2 ^ 63) mod 2 ^ 64 + b)%Z by ring.
  rewrite Z.add_mod_idemp_l by discriminate. f_equal. ring.
Qed.
Theorem C42_integer_sums : forall l,
  fold_left (fun a v => wrap_u64 (a + v)) l 0%Z = wrap_u64 (zsum l) /\ fold_left (fun a v => wrap_i64 (a + v)) l 0%Z = wrap_i64 (zsum l).
Proof.
  assert (G : forall w, (forall a b, w (w a + b)%Z = w (a + b)%Z) -> forall l z, fold_left (fun a v => w (a + v)%Z) l (w z) = w (z + zsum l)%Z).
  { intros w Hw. induction l as [|x l IH]; intros z; cbn [fold_left zsum fold_right]; [f_equal; ring|]. rewrite Hw, IH. f_equal. unfold zsum. ring. }
  intros l. split; [exact (G _ wrap_u64_add l 0%Z)|exact (G _ wrap_i64_add l 0%Z)].
Qed.
Print Assumptions C42_integer_sums.
(** ... and exactly the sum when it is in range, which needs no ordering. *)
Theorem C42_sums_in_range : forall l l', Permutation l l' ->
  ((0 <= zsum l < 2 ^ 64)%Z -> fold_left (fun a v => wrap_u64 (a + v)) l 0%Z = zsum l') /\
  ((- 2 ^ 63 <= zsum l < 2 ^ 63)%Z -> fold_left (fun a v => wrap_i64 (a + v)) l 0%Z = zsum l').
Proof.
  intros l l' P. assert (zsum l = zsum l') as <- by (induction P; cbn in *; unfold zsum in *; cbn in *; try ring; congruence || (rewrite IHP; ring)).
  destruct (C42_integer_sums l) as [-> ->]. split; intros H.
  - apply Z.mod_small. exact H.
  - unfold wrap_i64. rewrite Z.mod_small; [ring|]. change (2 ^ 64)%Z with (2 ^ 63 + 2 ^ 63)%Z. lia.
Qed.
Print Assumptions C42_sums_in_range.

(** No thread is ever stuck: a measurement can always take its next step (it
    waits only while a cumulative collection is reading), and so can a collection. *)
Theorem C42_progress : forall Vl A V veq yes srt keep (create : A) (update : A -> V -> A) limit delta acts s,
  sorter_ok (Vl := Vl) srt -> stream_run veq yes srt keep create update limit delta acts = Some s ->
  (forall i c, nth_error (v_calls s) i = Some c -> c_pc c <> MDone -> locked s = false ->
     vstep (attrs_eq_dec veq) (sort_and_dedup srt) (overflow_attrs yes) keep create update limit delta s (MStep i) <> None) /\
  (v_pc s <> CIdle -> exists order, vstep (attrs_eq_dec veq) (sort_and_dedup srt) (overflow_attrs yes) keep create update limit delta s (CStep order) <> None).
Proof.
  intros Vl A V veq yes srt keep create update limit delta acts s Hs H. split.
  - intros i c Hi Hp Hl. cbn [vstep]. unfold mstep. rewrite Hi, Hl. destruct (c_pc c); try discriminate; [|destruct (write _ _ _ _ _ _ _ _ _); discriminate|contradiction]. destruct (find _ _ _ _); discriminate.
  - intros Hp. exists (seq 0 (length (trackers (v_map s)))). cbn [vstep]. unfold cstep. destruct (v_pc s) as [| | |[|e rest]]; try discriminate; [contradiction|].
    assert (Hpk : pick (seq 0 (length (trackers (v_map s)))) (trackers (v_map s)) <> None).
    { unfold pick. rewrite seq_length, Nat.eqb_refl. cbn [andb].
      assert (forallb (fun i => i <? length (trackers (v_map s))) (seq 0 (length (trackers (v_map s)))) = true) as ->.
      { apply forallb_forall. intros x Hx. apply in_seq in Hx. apply Nat.ltb_lt. lia. }
      assert (Hn : forall n a, nodupb (seq a n) = true).
      { induction n as [|n IH]; intros a; cbn; [reflexivity|]. rewrite IH, andb_true_r. apply negb_true_iff. destruct (existsb (Nat.eqb a) (seq (S a) n)) eqn:E; [|reflexivity].
        apply existsb_exists in E. destruct E as (x & Hx & Ex). apply in_seq in Hx. apply Nat.eqb_eq in Ex. lia. }
      rewrite Hn. discriminate. }
    destruct (pick _ _); [|contradiction]. destruct delta; discriminate.
Qed.
Print Assumptions C42_progress.

(** * C43 *)

(** A collection has at most [limit] sets, the overflow set and the empty set;
    a measurement goes to the overflow set only if [limit] other sets were used
    in the same cycle. *)
Theorem C43_bound : forall Vl A V veq yes srt keep (create : A) (update : A -> V -> A) limit delta acts s o,
  sorter_ok (Vl := Vl) srt -> stream_run veq yes srt keep create update limit delta acts = Some s -> In o (v_outs s) ->
  length (o_pts o) <= limit + 2 /\
  (forall e, In e (window (o_mapfrom o) (o_mapupto o) (v_hist s)) -> a_class e <> sort_and_dedup srt (a_attrs e) ->
     a_class e = [(of_string "otel.metric.overflow"%string, yes)] /\
     exists cs, NoDup cs /\ limit <= length cs /\ ~ In (sort_and_dedup srt (a_attrs e)) cs /\ forall c, In c cs ->
       c <> [] /\ exists e', In e' (window (o_mapfrom o) (o_mapupto o) (v_hist s)) /\ sort_and_dedup srt (a_attrs e') = c /\ a_class e' = c).
Proof.
  intros Vl A V veq yes srt keep create update limit delta acts s o Hs H Ho. pose proof (stream_inv _ _ _ _ _ _ _ _ _ _ Hs H) as I.
  assert (O := proj1 (Forall_forall _ _) (vi_outs _ _ _ _ _ _ _ _ I) o Ho). split; [apply O|]. intros e He Hc. split.
  - assert (He' : In e (v_hist s)) by (eapply skipn_incl, window_incl, He). destruct (vi_cls _ _ _ _ _ _ _ _ I _ He') as [[E1 E2]|[E1 [E2|E2]]]; auto; [|contradiction].
    exfalso. apply Hc. rewrite E1, E2. symmetry. apply canon_nil; auto.
  - destruct (oo_route _ _ _ _ _ _ _ _ O e He Hc) as (cs & C1 & C2 & C2' & C3). exists cs. split; [exact C1|]. split; [exact C2|]. split; [exact C2'|]. intros c Hin. destruct (C3 c Hin) as (? & e' & ? & ? & ?). eauto 8.
Qed.
Print Assumptions C43_bound.

(** Grand totals.  For any associative and commutative aggregation the points of
    a collection that overlaps no measurement aggregate to all the measurements:
    here for integers modulo 2^64. *)
Lemma zsum_cons a l : zsum (a :: l) = (a + zsum l)%Z.
Proof. reflexivity. Qed.
Lemma nodup_partition {C} (ceq : forall x y : C, {x = y} + {x <> y}) (cls : list C) : forall (l : list (C * Z)), NoDup cls -> (forall e, In e l -> In (fst e) cls) ->
  zsum (map (fun c => zsum (map snd (List.filter (fun e => if ceq (fst e) c then true else false) l))) cls) = zsum (map snd l).
Proof.
  induction l as [|[c v] l IH]; intros Hn Hin.
  - cbn. clear. induction cls; cbn; auto.
  - cbn [map snd]. change (zsum (v :: map snd l)) with (v + zsum (map snd l))%Z. rewrite <- IH; [|exact Hn|intros e He; apply Hin; right; exact He].
    assert (Hc : In c cls) by (apply (Hin (c, v)); left; reflexivity). clear IH Hin.
    set (g := fun x => zsum (map snd (List.filter (fun e : C * Z => if ceq (fst e) x then true else false) l))).
    assert (Hg : forall x, zsum (map snd (List.filter (fun e : C * Z => if ceq (fst e) x then true else false) ((c, v) :: l))) = ((if ceq c x then v else 0) + g x)%Z).
    { intros x. cbn [List.filter fst]. unfold g. destruct (ceq c x); reflexivity. }
    rewrite (map_ext _ _ Hg). clear Hg. induction cls as [|x cls IH]; [destruct Hc|].
    cbn [map]. rewrite !zsum_cons. inversion Hn as [|? ? Hn1 Hn2]; subst. destruct (ceq c x) as [<-|Hne].
    + assert (E : map (fun x => ((if ceq c x then v else 0) + g x)%Z) cls = map g cls).
      { apply map_ext_in. intros y Hy. destruct (ceq c y) as [<-|]; [contradiction|reflexivity]. }
      rewrite E. ring.
    + destruct Hc as [E|Hc]; [congruence|]. rewrite IH by assumption. ring.
Qed.
Lemma zsum_wrap l : wrap_u64 (zsum (map wrap_u64 l)) = wrap_u64 (zsum l).
Proof. induction l as [|x l IH]; [reflexivity|]. cbn [map]. unfold zsum in *. cbn [fold_right]. rewrite wrap_u64_add, Z.add_comm, <- wrap_u64_add, IH, wrap_u64_add. f_equal. ring. Qed.
Theorem C43_grand_total : forall Vl veq yes srt keep limit delta acts s o,
  sorter_ok (Vl := Vl) srt -> stream_run veq yes srt keep 0%Z (fun a v => wrap_u64 (a + v)) limit delta acts = Some s -> In o (v_outs s) ->
  (* no measurement was applied during the collection, and all calls had returned *)
  o_start o = o_stop o -> (forall e, In e (firstn (o_start o) (v_hist s)) -> In (a_call e) (o_done o)) -> o_nofrom o = o_mapfrom o ->
  wrap_u64 (zsum (map (@p_val _ _) (o_pts o))) = wrap_u64 (zsum (map (@a_val _ _) (window (o_mapfrom o) (o_stop o) (v_hist s)))).
Proof.
  intros Vl veq yes srt keep limit delta acts s o Hs H Ho Hq Hd Hnf. pose proof (stream_inv _ _ _ _ _ _ _ _ _ _ Hs H) as I.
  assert (O := proj1 (Forall_forall _ _) (vi_outs _ _ _ _ _ _ _ _ I) o Ho). destruct (oo_time _ _ _ _ _ _ _ _ O) as (T1 & T2 & T3 & T4).
  set (w := window (o_mapfrom o) (o_stop o) (v_hist s)).
  assert (Hv : forall p, In p (o_pts o) -> p_val p = wrap_u64 (zsum (recorded veq (sort_and_dedup srt (p_attrs p)) w))).
  { intros p Hp. destruct (oo_pts _ _ _ _ _ _ _ _ O p Hp) as ([X1 X2] & X3 & X4 & X5). rewrite X2. unfold agg. rewrite recorded_vals.
    rewrite (proj1 (C42_integer_sums _)). do 3 f_equal. unfold w. assert (p_upto p = o_stop o) as -> by lia.
    destruct (p_attrs p) eqn:Ea; [rewrite X4 by reflexivity; congruence|]. destruct X5 as (X5 & _); [discriminate|]. congruence. }
  assert (Hmap : map (@p_val _ _) (o_pts o) = map wrap_u64 (map (fun p => zsum (recorded veq (sort_and_dedup srt (p_attrs p)) w)) (o_pts o))).
  { rewrite map_map. apply map_ext_in. exact Hv. }
  rewrite Hmap, zsum_wrap. f_equal. clear Hmap Hv.
  pose proof (nodup_partition (attrs_eq_dec veq) (map (fun p => sort_and_dedup srt (p_attrs p)) (o_pts o)) (map (fun e => (a_class e, a_val e)) w)) as P.
  assert (E1 : map snd (map (fun e : applied (KV := kv Vl) (V := Z) => (a_class e, a_val e)) w) = map (@a_val _ _) w) by (rewrite map_map; reflexivity).
  rewrite E1 in P. rewrite <- P.
  - rewrite map_map. f_equal. apply map_ext. intros p. unfold recorded. f_equal. clear. induction w as [|e w IH]; [reflexivity|]. cbn. destruct (attrs_eq_dec veq (a_class e) _); cbn; rewrite IH; reflexivity.
  - apply O.
  - intros e He. apply in_map_iff in He. destruct He as (x & <- & Hx). cbn [fst]. apply in_map_iff.
    assert (Hx' : In x (firstn (o_start o) (v_hist s))) by (rewrite Hq; eapply skipn_incl, Hx).
    destruct (attrs_eq_dec veq (a_class x) []) as [E|E].
    + destruct (oo_no _ _ _ _ _ _ _ _ O x) as (p & P1 & P2); auto; [unfold window; rewrite Hnf, Hq; exact Hx|]. exists p. split; [|exact P1]. rewrite P2, E. apply canon_nil; auto.
    + destruct (oo_all _ _ _ _ _ _ _ _ O x) as (p & P1 & P2); auto; [assert (o_mapupto o = o_stop o) as -> by lia; exact Hx|]. exists p. auto.
Qed.
Print Assumptions C43_grand_total.

(** * C44 *)

(** Delta collections: the windows of successive collections follow one another
    without gap or overlap, and each attributed point aggregates exactly the
    measurements of its set in its window; likewise for the points without
    attributes.  What lies after the last cut is still pending. *)
Theorem C44_windows_tile : forall Vl A V veq yes srt keep (create : A) (update : A -> V -> A) limit acts s,
  sorter_ok (Vl := Vl) srt -> stream_run veq yes srt keep create update limit true acts = Some s ->
  tiles (@o_mapfrom _ _) (@o_mapupto _ _) 0 (v_outs s) (v_cutmap s) /\
  (v_pc s = CIdle -> tiles (@p_from _ _) (@p_upto _ _) 0 (nopts (flat_map (@o_pts _ _) (v_outs s))) (v_cutno s)) /\
  v_cutmap s <= length (v_hist s) /\ v_cutno s <= length (v_hist s).
Proof.
  intros Vl A V veq yes srt keep create update limit acts s Hs H. pose proof (stream_inv _ _ _ _ _ _ _ _ _ _ Hs H) as I.
  split; [apply (vi_tmap _ _ _ _ _ _ _ _ I); reflexivity|]. destruct (vi_cuts _ _ _ _ _ _ _ _ I) as (C1 & C2 & _).
  split; [|split; [exact C2|exact C1]]. intros Hp. pose proof (vi_tno _ _ _ _ _ _ _ _ I eq_refl) as X.
  pose proof (vi_col _ _ _ _ _ _ _ _ I) as Y. unfold col_ok in Y. rewrite Hp in Y. rewrite Y, app_nil_r in X. exact X.
Qed.
Print Assumptions C44_windows_tile.
Theorem C44_points : forall Vl A V veq yes srt keep (create : A) (update : A -> V -> A) limit acts s o,
  sorter_ok (Vl := Vl) srt -> stream_run veq yes srt keep create update limit true acts = Some s -> In o (v_outs s) ->
  NoDup (map (fun p => sort_and_dedup srt (p_attrs p)) (o_pts o)) /\
  (forall p, In p (o_pts o) -> p_val p = fold_left update (recorded veq (sort_and_dedup srt (p_attrs p)) (window (p_from p) (p_upto p) (v_hist s))) create) /\
  (forall p, In p (o_pts o) -> p_attrs p <> [] -> p_from p = o_mapfrom o /\ p_upto p = o_mapupto o) /\
  (forall e, In e (window (o_mapfrom o) (o_mapupto o) (v_hist s)) -> a_class e <> [] -> exists p, In p (o_pts o) /\ sort_and_dedup srt (p_attrs p) = a_class e).
Proof.
  intros Vl A V veq yes srt keep create update limit acts s o Hs H Ho. pose proof (stream_inv _ _ _ _ _ _ _ _ _ _ Hs H) as I.
  assert (O := proj1 (Forall_forall _ _) (vi_outs _ _ _ _ _ _ _ _ I) o Ho). split; [apply O|]. split; [|split; [|apply O]].
  - intros p Hp. destruct (oo_pts _ _ _ _ _ _ _ _ O p Hp) as ([X1 X2] & _). rewrite X2. unfold agg. rewrite recorded_vals. reflexivity.
  - intros p Hp Hn. destruct (oo_pts _ _ _ _ _ _ _ _ O p Hp) as (_ & _ & _ & X). destruct (X Hn) as (X1 & _ & X2 & _). auto.
Qed.
Print Assumptions C44_points.

(** Hence for sums: over all collections made, plus what is pending, every
    attribute set gets exactly the total of its measurements. *)
Definition of_set {Vl A} (veq : forall x y : Vl, {x = y} + {x <> y}) (srt : list (kv Vl) -> list (kv Vl)) (c : list (kv Vl)) (l : list (point (KV := kv Vl) (A := A))) : list A :=
  map (@p_val _ _) (List.filter (fun p => if attrs_eq_dec veq (sort_and_dedup srt (p_attrs p)) c then true else false) l).
Lemma zsum_app l l' : zsum (l ++ l') = (zsum l + zsum l')%Z.
Proof. unfold zsum. induction l as [|x l IH]; cbn; [reflexivity|]. rewrite IH. ring. Qed.
Lemma recorded_app {Vl V} veq c (h h' : list (applied (KV := kv Vl) (V := V))) : recorded veq c (h ++ h') = recorded veq c h ++ recorded veq c h'.
Proof. unfold recorded. rewrite filter_app, map_app. reflexivity. Qed.
Lemma wrap_cong a b c d : wrap_u64 a = wrap_u64 b -> wrap_u64 c = wrap_u64 d -> wrap_u64 (a + c) = wrap_u64 (b + d).
Proof. intros H1 H2. rewrite <- wrap_u64_add, H1, wrap_u64_add, Z.add_comm, <- wrap_u64_add, H2, wrap_u64_add. f_equal. ring. Qed.
Lemma firstn_window {T} f u (h : list T) : f <= u -> firstn u h = firstn f h ++ skipn f (firstn u h).
Proof. intros H. rewrite <- (firstn_skipn f (firstn u h)) at 1. rewrite firstn_firstn, Nat.min_l by lia. reflexivity. Qed.
Lemma tile_sum {X V Vl} veq (c : list (kv Vl)) (h : list (applied (KV := kv Vl) (V := Z))) (from upto : X -> nat) (val : X -> V) (f : V -> Z) : forall l x y,
  tiles from upto x l y -> (forall o, In o l -> from o <= upto o) ->
  (forall o, In o l -> wrap_u64 (f (val o)) = wrap_u64 (zsum (recorded veq c (window (from o) (upto o) h)))) ->
  wrap_u64 (zsum (recorded veq c (firstn x h)) + zsum (map (fun o => f (val o)) l)) = wrap_u64 (zsum (recorded veq c (firstn y h))).
Proof.
  induction l as [|o l IH]; intros x y HT Hle Hv; cbn [tiles] in HT.
  - subst. cbn. f_equal. ring.
  - destruct HT as [<- HT]. rewrite <- (IH (upto o) y HT); [|intros o' Ho'; apply Hle; right; exact Ho'|intros o' Ho'; apply Hv; right; exact Ho'].
    rewrite (firstn_window (from o) (upto o) h) by (apply Hle; left; reflexivity). rewrite recorded_app, zsum_app. cbn [map]. change (zsum (?a :: ?b)) with (a + zsum b)%Z.
    rewrite Z.add_assoc. apply wrap_cong; [|reflexivity]. apply wrap_cong; [reflexivity|]. apply Hv. left. reflexivity.
Qed.
Theorem C44_nothing_lost : forall Vl veq yes srt keep limit acts s c,
  sorter_ok (Vl := Vl) srt -> stream_run veq yes srt keep 0%Z (fun a v => wrap_u64 (a + v)) limit true acts = Some s ->
  c <> [] -> sort_and_dedup srt c = c ->
  wrap_u64 (zsum (of_set veq srt c (flat_map (@o_pts _ _) (v_outs s))) + zsum (recorded veq c (skipn (v_cutmap s) (v_hist s)))) =
  wrap_u64 (zsum (recorded veq c (v_hist s))).
Proof.
  intros Vl veq yes srt keep limit acts s c Hs H Hc Hcc.
  destruct (C44_windows_tile _ _ _ _ _ _ _ _ _ _ _ _ Hs H) as (T & _ & B & _).
  assert (E : of_set veq srt c (flat_map (@o_pts _ _) (v_outs s)) = flat_map (fun o => of_set veq srt c (o_pts o)) (v_outs s)).
  { generalize (v_outs s). clear. intros l. induction l as [|o l IH]; [reflexivity|]. cbn. unfold of_set in *. rewrite filter_app, map_app, IH. reflexivity. }
  assert (E2 : forall l : list (out (KV := kv Vl) (A := Z)), zsum (flat_map (fun o => of_set veq srt c (o_pts o)) l) = zsum (map (fun o => zsum (of_set veq srt c (o_pts o))) l)).
  { induction l as [|o l IH]; [reflexivity|]. cbn. rewrite zsum_app, IH. reflexivity. }
  rewrite E, E2. rewrite <- (firstn_skipn (v_cutmap s) (v_hist s)) at 2. rewrite recorded_app, zsum_app. apply wrap_cong; [|reflexivity].
  pose proof (tile_sum veq c (v_hist s) (@o_mapfrom _ _) (@o_mapupto _ _) (fun o => o_pts o) (fun l => zsum (of_set veq srt c l)) (v_outs s) 0 (v_cutmap s) T) as X.
  cbn [firstn] in X. rewrite <- X; [f_equal; cbn; ring| |]; clear X T.
  - intros o Ho. pose proof (stream_inv _ _ _ _ _ _ _ _ _ _ Hs H) as I. pose proof (proj1 (Forall_forall _ _) (vi_outs _ _ _ _ _ _ _ _ I) o Ho) as O.
    destruct (oo_time _ _ _ _ _ _ _ _ O) as (_ & _ & T & _). exact T.
  - intros o Ho. destruct (C44_points _ _ _ _ _ _ _ _ _ _ _ _ _ Hs H Ho) as (P1 & P2 & P3 & P4).
    set (w := window (o_mapfrom o) (o_mapupto o) (v_hist s)) in *.
    assert (Hval : forall p, In p (o_pts o) -> sort_and_dedup srt (p_attrs p) = c -> p_val p = wrap_u64 (zsum (recorded veq c w))).
    { intros p Hp Ep. rewrite (P2 p Hp), Ep, (proj1 (C42_integer_sums _)). destruct (P3 p Hp) as [-> ->]; [|reflexivity]. intros E0. apply Hc. rewrite <- Ep, E0. apply canon_nil; auto. }
    assert (Hall : recorded veq c w <> [] -> exists p, In p (o_pts o) /\ sort_and_dedup srt (p_attrs p) = c).
    { intros Hr. unfold recorded in Hr. destruct (List.filter _ w) as [|e l] eqn:Ef; [contradiction|]. assert (He : In e (List.filter (fun e => if attrs_eq_dec veq (a_class e) c then true else false) w)) by (rewrite Ef; left; reflexivity).
      apply filter_In in He. destruct He as [He Hcl]. destruct (attrs_eq_dec veq (a_class e) c) as [Ec|]; [|discriminate]. rewrite <- Ec. apply P4; [exact He|congruence]. }
    assert (Hsum : zsum (of_set veq srt c (o_pts o)) = if (List.length (recorded veq c w) =? 0) && negb (existsb (fun p => if attrs_eq_dec veq (sort_and_dedup srt (p_attrs p)) c then true else false) (o_pts o)) then 0%Z else wrap_u64 (zsum (recorded veq c w))).
    { destruct (existsb (fun p => if attrs_eq_dec veq (sort_and_dedup srt (p_attrs p)) c then true else false) (o_pts o)) eqn:Ex.
      - rewrite andb_false_r. apply existsb_exists in Ex. destruct Ex as (p & Hp & Ep). destruct (attrs_eq_dec veq (sort_and_dedup srt (p_attrs p)) c) as [Epc|]; [|discriminate]. clear Ep.
        assert (Hone : of_set veq srt c (o_pts o) = [p_val p]).
        { clear -P1 Hp Epc. unfold of_set. induction (o_pts o) as [|q l IH]; [destruct Hp|]. cbn in P1. inversion P1 as [|? ? N1 N2]; subst. cbn [List.filter].
          destruct Hp as [->|Hp].
          - destruct (attrs_eq_dec veq _ _); [|contradiction]. cbn. f_equal. assert (List.filter (fun p0 => if attrs_eq_dec veq (sort_and_dedup srt (p_attrs p0)) (sort_and_dedup srt (p_attrs p)) then true else false) l = []) as ->; [|reflexivity].
            clear -N1. induction l as [|r l IH]; [reflexivity|]. cbn. cbn in N1. destruct (attrs_eq_dec veq _ _) as [E|]; [exfalso; apply N1; left; exact E|]. apply IH. intros X. apply N1. right. exact X.
          - destruct (attrs_eq_dec veq (sort_and_dedup srt (p_attrs q)) (sort_and_dedup srt (p_attrs p))) as [E|]; [|apply IH; auto]. exfalso. apply N1. rewrite E. apply in_map_iff. exists p. auto. }
        rewrite Hone. cbn. rewrite (Hval p Hp Epc). ring.
      - destruct (recorded veq c w) eqn:Er; cbn [length Nat.eqb andb negb].
        + assert (of_set veq srt c (o_pts o) = []) as ->; [|reflexivity]. unfold of_set. clear -Ex. induction (o_pts o) as [|q l IH]; [reflexivity|]. cbn in *. destruct (attrs_eq_dec veq _ _); [discriminate|]. apply IH, Ex.
        + exfalso. destruct Hall as (p & Hp & Ep); [discriminate|]. assert (Ht : existsb (fun p => if attrs_eq_dec veq (sort_and_dedup srt (p_attrs p)) c then true else false) (o_pts o) = true); [|congruence].
          apply existsb_exists. exists p. split; [exact Hp|]. destruct (attrs_eq_dec veq _ _); [reflexivity|contradiction]. }
    rewrite Hsum. destruct (recorded veq c w) eqn:Er; cbn [length Nat.eqb andb]; [destruct (negb _); reflexivity|].
    unfold wrap_u64. rewrite Z.mod_mod by discriminate. reflexivity.
Qed.
Print Assumptions C44_nothing_lost.
Theorem C44_nothing_lost_no_attributes : forall Vl veq yes srt keep limit acts s,
  sorter_ok (Vl := Vl) srt -> stream_run veq yes srt keep 0%Z (fun a v => wrap_u64 (a + v)) limit true acts = Some s -> v_pc s = CIdle ->
  wrap_u64 (zsum (map (@p_val _ _) (nopts (flat_map (@o_pts _ _) (v_outs s)))) + zsum (recorded veq [] (skipn (v_cutno s) (v_hist s)))) =
  wrap_u64 (zsum (recorded veq [] (v_hist s))).
Proof.
  intros Vl veq yes srt keep limit acts s Hs H Hp. destruct (C44_windows_tile _ _ _ _ _ _ _ _ _ _ _ _ Hs H) as (_ & T & _ & B). specialize (T Hp).
  rewrite <- (firstn_skipn (v_cutno s) (v_hist s)) at 2. rewrite recorded_app, zsum_app. apply wrap_cong; [|reflexivity].
  pose proof (tile_sum veq [] (v_hist s) (@p_from _ _) (@p_upto _ _) (@p_val _ _) (fun z => z) _ 0 (v_cutno s) T) as X. cbn [firstn] in X.
  assert (Hin : forall p, In p (nopts (flat_map (@o_pts _ _) (v_outs s))) -> exists o, In o (v_outs s) /\ In p (o_pts o) /\ p_attrs p = []).
  { intros p Hin. unfold nopts in Hin. apply filter_In in Hin. destruct Hin as [Hin E]. apply in_flat_map in Hin. destruct Hin as (o & H1 & H2). exists o. repeat split; auto. destruct (p_attrs p); [reflexivity|discriminate]. }
  rewrite <- X; [f_equal; cbn; ring| |].
  - intros p Hp'. destruct (Hin p Hp') as (o & Ho & Hpo & _). pose proof (stream_inv _ _ _ _ _ _ _ _ _ _ Hs H) as I. pose proof (proj1 (Forall_forall _ _) (vi_outs _ _ _ _ _ _ _ _ I) o Ho) as O.
    destruct (oo_pts _ _ _ _ _ _ _ _ O p Hpo) as ([X1 _] & _). lia.
  - intros p Hp'. destruct (Hin p Hp') as (o & Ho & Hpo & Ea). destruct (C44_points _ _ _ _ _ _ _ _ _ _ _ _ _ Hs H Ho) as (_ & P2 & _). rewrite (P2 p Hpo), Ea.
    rewrite (proj2 (canon_nil srt Hs []) eq_refl), (proj1 (C42_integer_sums _)). unfold wrap_u64. rewrite Z.mod_mod by discriminate. reflexivity.
Qed.
Print Assumptions C44_nothing_lost_no_attributes.

(** * C46 *)

(** A point with attributes always stands for at least one measurement of its
    set made in its window, and carries the attributes given with one of them, in
    the order given or sorted. *)
Theorem C46_attributed_points_are_recorded : forall Vl A V veq yes srt keep (create : A) (update : A -> V -> A) limit delta acts s o p,
  sorter_ok (Vl := Vl) srt -> stream_run veq yes srt keep create update limit delta acts = Some s -> In o (v_outs s) -> In p (o_pts o) -> p_attrs p <> [] ->
  exists e, In e (window (p_from p) (p_upto p) (v_hist s)) /\ a_class e = sort_and_dedup srt (p_attrs p) /\
  (p_attrs p = sort_and_dedup srt (p_attrs p) \/ p_attrs p = a_attrs e).
Proof.
  intros Vl A V veq yes srt keep create update limit delta acts s o p Hs H Ho Hp Hn. pose proof (stream_inv _ _ _ _ _ _ _ _ _ _ Hs H) as I.
  assert (O := proj1 (Forall_forall _ _) (vi_outs _ _ _ _ _ _ _ _ I) o Ho). destruct (oo_pts _ _ _ _ _ _ _ _ O p Hp) as (_ & _ & _ & X). apply (X Hn).
Qed.
Print Assumptions C46_attributed_points_are_recorded.

(** A point without attributes need not: a measurement may be between its update
    and its store to has_no_attribute_value when a delta collection takes the
    value; the next collection then reports a point nobody recorded. *)
Definition ex_run (delta : bool) (acts : list vaction) : option (vstate (KV := kv nat) (A := Z) (V := Z)) :=
  stream_run Nat.eq_dec 1 isort None 0%Z (fun a v => wrap_u64 (a + v)) 2 delta acts.
Definition race : list (vaction (KV := kv nat) (V := Z)) :=
  [Measure [] 5%Z; MStep 0; MStep 0; Measure [] 7%Z; MStep 1; Collect; CStep []; CStep []; MStep 1; Collect; CStep []; CStep []].
Theorem C109_only_recorded_points_refuted : ~ (forall Vl veq yes srt keep limit acts s o p,
  sorter_ok (Vl := Vl) srt -> stream_run veq yes srt keep 0%Z (fun a v => wrap_u64 (a + v)) limit true acts = Some s -> In o (v_outs s) -> In p (o_pts o) ->
  exists e, In e (window (p_from p) (p_upto p) (v_hist s)) /\ a_class e = sort_and_dedup srt (p_attrs p)).
Proof.
  intros H. specialize (H nat Nat.eq_dec 1 isort None 2 race).
  destruct (stream_run Nat.eq_dec 1 isort None 0%Z (fun a v => wrap_u64 (a + v)) 2 true race) as [s|] eqn:E; [|vm_compute in E; discriminate].
  specialize (H s (nth 1 (v_outs s) (mk_out 0 0 0 0 0 [] [])) (mk_pt [] 0%Z 2 2) isort_ok eq_refl). vm_compute in E. injection E as <-.
  cbn [v_outs nth o_pts v_hist p_from p_upto p_attrs] in H. destruct H as (e & He & _); [right; left; reflexivity|left; reflexivity|exact He].
Qed.
Print Assumptions C109_only_recorded_points_refuted.
(** It cannot happen if no measurement without attributes is under way whenever a
    collection takes the value (between clearing the flag and resetting). *)
Section quiet.
Context {Vl A V : Type}.
Variable veq : forall x y : Vl, {x = y} + {x <> y}.
Variable yes : Vl.
Variable srt : list (kv Vl) -> list (kv Vl).
Variable keep : option (kv Vl -> bool).
Variable create : A.
Variable update : A -> V -> A.
Variable limit : nat.
Notation st := (vstate (KV := kv Vl) (A := A) (V := V)).
Notation step := (vstep (attrs_eq_dec veq) (sort_and_dedup srt) (overflow_attrs yes) keep create update limit true).
Definition undisturbed (s : st) : Prop := v_pc s = CNo -> flag (v_map s) = false /\ forall c, In c (v_calls s) -> c_pc c <> MNoFlag.
Fixpoint quiet_run (s : st) (acts : list vaction) (s' : st) : Prop :=
  match acts with
  | [] => s = s'
  | a :: acts => (match a with CStep _ => undisturbed s | _ => True end) /\ exists s1, step s a = Some s1 /\ quiet_run s1 acts s'
  end.
Definition no_pending (s : st) : Prop :=
  (flag (v_map s) = true \/ v_pc s = CNo \/ exists c, In c (v_calls s) /\ c_pc c = MNoFlag) -> exists e, In e (skipn (v_cutno s) (v_hist s)) /\ a_class e = [].
Definition nonempty (h : list (applied (KV := kv Vl) (V := V))) (p : point (KV := kv Vl) (A := A)) : Prop :=
  p_attrs p = [] -> p_upto p <= length h /\ exists e, In e (window (p_from p) (p_upto p) h) /\ a_class e = ([] : list (kv Vl)).
Lemma nonempty_grow h x p : nonempty h p -> nonempty (h ++ x) p.
Proof. intros H E. destruct (H E) as (H1 & e & H2 & H3). split; [rewrite app_length; lia|]. exists e. rewrite window_grow by exact H1. auto. Qed.
Definition qinv (s : st) : Prop := v_cutno s <= length (v_hist s) /\ no_pending s /\ Forall (nonempty (v_hist s)) (flat_map (@o_pts _ _) (v_outs s) ++ v_dest s).
Lemma set_nth_in {T} : forall (l : list T) i x y, In y (set_nth i x l) -> In y l \/ y = x.
Proof. induction l as [|a l IH]; intros [|i] x y; cbn; auto; intros [H|H]; auto. apply IH in H. tauto. Qed.
Lemma qinv_apply s i c m cls pc' : qinv s -> flag m = flag (v_map s) -> (pc' = MNoFlag -> cls = []) -> qinv (set_call i (goto pc' c) (apply i c m cls s)).
Proof.
  intros (Q1 & Q2 & Q3) Hf Hp. unfold qinv, no_pending, set_call, apply in *. cbn [v_map v_calls v_pc v_dest v_hist v_cutno v_outs] in *. rewrite app_length. split; [lia|]. split.
  - intros Hc. rewrite skipn_snoc by lia. destruct Hc as [Hc|[Hc|(c' & Hc & Hpc)]].
    + rewrite Hf in Hc. destruct Q2 as (e & He & E); [auto|]. exists e. split; [apply in_or_app; auto|exact E].
    + destruct Q2 as (e & He & E); [auto|]. exists e. split; [apply in_or_app; auto|exact E].
    + apply set_nth_in in Hc. destruct Hc as [Hc|E0].
      * destruct Q2 as (e & He & E); [eauto|]. exists e. split; [apply in_or_app; auto|exact E].
      * subst c'. cbn in Hpc. eexists. split; [apply in_or_app; right; left; reflexivity|]. cbn. auto.
  - eapply Forall_impl; [|exact Q3]. intros p. apply nonempty_grow.
Qed.
Lemma tracker_attrs (s : st) e p : In p (tracker_point s e) -> p_attrs p = fst e.
Proof. unfold tracker_point. destruct (nth_error (heap (v_map s)) (snd e)); [|intros []]. intros [<-|[]]. reflexivity. Qed.
Lemma qinv_step s a s1 : sorter_ok srt -> vinv (attrs_eq_dec veq) (sort_and_dedup srt) (overflow_attrs yes) create update limit true s -> qinv s -> (match a with CStep _ => undisturbed s | _ => True end) -> step s a = Some s1 -> qinv s1.
Proof.
  intros Hsrt Iv Q Hu H. pose proof Q as (Q1 & Q2 & Q3). destruct a as [k v|i| |order]; cbn [vstep] in H.
  - injection H as <-. unfold qinv, no_pending in *. cbn [v_map v_calls v_pc v_dest v_hist v_cutno v_outs] in *. split; [exact Q1|]. split; [|exact Q3].
    intros [Hc|[Hc|(c & Hc & Hp)]]; auto. apply in_app_or in Hc. destruct Hc as [Hc|[<-|[]]]; [apply Q2; right; right; eauto|]. cbn [c_pc] in Hp.
    destruct (filtered keep k); discriminate Hp.
  - unfold mstep in H. destruct (nth_error (v_calls s) i) as [c|] eqn:Hi; [|discriminate]. destruct (c_pc c) eqn:Ep.
    + injection H as <-. apply qinv_apply; auto.
    + injection H as <-. unfold qinv, no_pending, set_call in *. cbn [v_map v_calls v_pc v_dest v_hist v_cutno v_outs] in *. split; [exact Q1|]. split; [|exact Q3].
      intros _. apply Q2. right. right. exists c. split; [eapply nth_error_In, Hi|exact Ep].
    + destruct (find _ _ _ _) as [id|].
      * injection H as <-. apply qinv_apply; auto; [|discriminate]. unfold upd. destruct (nth_error (heap (v_map s)) id); reflexivity.
      * injection H as <-. unfold qinv, no_pending, set_call in *. cbn [v_map v_calls v_pc v_dest v_hist v_cutno v_outs] in *. split; [exact Q1|]. split; [|exact Q3].
        intros [Hc|[Hc|(c' & Hc & Hp)]]; auto. apply set_nth_in in Hc. destruct Hc as [Hc|E0]; [apply Q2; right; right; eauto|]. subst c'. discriminate.
    + destruct (locked s); [discriminate|]. destruct (write _ _ _ _ _ _ _ _ _) as [m' cls] eqn:Ew. injection H as <-. apply qinv_apply; auto; [|discriminate].
      unfold write in Ew. destruct (find _ _ _ _) as [id|]; [injection Ew as <- _; unfold upd; destruct (nth_error (heap (v_map s)) id); reflexivity|].
      destruct (_ <? _); [injection Ew as <- _; reflexivity|]. destruct (lookup _ _ _) as [id|]; injection Ew as <- _; [unfold upd; destruct (nth_error (heap (v_map s)) id); reflexivity|reflexivity].
    + discriminate.
  - destruct (v_pc s) eqn:Ep; try discriminate. injection H as <-. unfold qinv, no_pending in *. cbn [v_map v_calls v_pc v_dest v_hist v_cutno v_outs flag] in *. split; [exact Q1|]. split.
    + intros [Hc|[Hc|Hc]]; auto; [discriminate|]. destruct (flag (v_map s)) eqn:Ef; [auto|discriminate].
    + rewrite app_nil_r. apply Forall_app in Q3. apply Q3.
  - unfold cstep in H. destruct (v_pc s) as [| | |[|e0 rest]] eqn:Ep; try discriminate.
    + injection H as <-. destruct (Hu Ep) as [U1 U2]. unfold qinv, no_pending in *. cbn [v_map v_calls v_pc v_dest v_hist v_cutno v_outs flag] in *. unfold now. split; [lia|]. split.
      * intros [Hc|[Hc|(c & Hc & Hp)]]; [congruence|discriminate|]. exfalso. exact (U2 c Hc Hp).
      * rewrite app_assoc. apply Forall_app. split; [exact Q3|]. constructor; [|constructor]. intros _. cbn [p_from p_upto]. split; [lia|]. rewrite window_all. apply Q2. auto.
    + destruct (pick order (trackers (v_map s))) as [es|] eqn:Epk; [|discriminate]. injection H as <-. unfold qinv, no_pending, finish in *. cbn [v_map v_calls v_pc v_dest v_hist v_cutno v_outs flag] in *. split; [exact Q1|]. split.
      * intros [Hc|[Hc|Hc]]; auto. discriminate.
      * rewrite app_nil_r, flat_map_app. cbn [flat_map o_pts]. rewrite app_nil_r, app_assoc. apply Forall_app. split; [exact Q3|]. apply Forall_forall. intros p Hp E.
        exfalso. apply in_flat_map in Hp. destruct Hp as ([k id] & Hk & Hp). apply tracker_attrs in Hp. cbn [fst] in Hp.
        apply dedup_in in Hk. destruct Hk as [Hk _]. apply (Permutation_in _ (pick_perm _ _ _ Epk)) in Hk.
        destruct (vi_map _ _ _ _ _ _ _ _ Iv) as [M1 M2 _ _]. apply (lookup_in (attrs_eq_dec veq)) in Hk; [|exact M1]. apply M2 in Hk. destruct Hk as [Hk _]. congruence.
    + injection H as <-. unfold qinv, no_pending, finish in *. cbn [v_map v_calls v_pc v_dest v_hist v_cutno v_outs flag] in *. split; [exact Q1|]. split.
      * intros [Hc|[Hc|Hc]]; auto. discriminate.
      * rewrite app_nil_r, flat_map_app. cbn [flat_map o_pts]. rewrite app_nil_r. exact Q3.
    + exfalso. pose proof (vi_col _ _ _ _ _ _ _ _ Iv) as Y. unfold col_ok in Y. rewrite Ep in Y. destruct Y as (Y & _). discriminate.
Qed.
Lemma quiet_inv : sorter_ok srt -> forall acts s s', vinv (attrs_eq_dec veq) (sort_and_dedup srt) (overflow_attrs yes) create update limit true s -> qinv s -> quiet_run s acts s' -> qinv s'.
Proof.
  intros Hsrt. induction acts as [|a acts IH]; intros s s' Iv Q H; cbn [quiet_run] in H; [subst; exact Q|]. destruct H as (Hu & s1 & H1 & H2).
  eapply IH; [|eapply qinv_step; eauto|exact H2].
  eapply vinv_step; [| | | |exact Iv|exact H1]; [intros k; apply canon_idem, Hsrt|intros k; apply canon_nil, Hsrt|apply canon_single, Hsrt|discriminate].
Qed.
End quiet.
Lemma quiet_stream {Vl A V} veq yes (srt : list (kv Vl) -> list (kv Vl)) keep (create : A) (update : A -> V -> A) limit acts : forall s0 s,
  quiet_run veq yes srt keep create update limit s0 acts s -> vrun (attrs_eq_dec veq) (sort_and_dedup srt) (overflow_attrs yes) keep create update limit true s0 acts = Some s.
Proof. induction acts as [|a acts IH]; intros s0 s H; cbn in *; [congruence|]. destruct H as (_ & s1 & H1 & H2). rewrite H1. apply IH, H2. Qed.
Theorem C46_only_recorded_points : forall Vl A V veq yes srt keep (create : A) (update : A -> V -> A) limit acts s o p,
  sorter_ok (Vl := Vl) srt -> quiet_run veq yes srt keep create update limit (v_init create) acts s -> In o (v_outs s) -> In p (o_pts o) ->
  exists e, In e (window (p_from p) (p_upto p) (v_hist s)) /\ a_class e = sort_and_dedup srt (p_attrs p).
Proof.
  intros Vl A V veq yes srt keep create update limit acts s o p Hs H Ho Hp. destruct (attrs_eq_dec veq (p_attrs p) []) as [E|E].
  - assert (Q : qinv s).
    { eapply quiet_inv; [exact Hs| | |exact H].
      - eapply (vinv_reach _ _ _ keep); [intros k; apply canon_idem, Hs|intros k; apply canon_nil, Hs|apply canon_single, Hs|discriminate|exact (eq_refl : vrun (attrs_eq_dec veq) (sort_and_dedup srt) (overflow_attrs yes) keep create update limit true (v_init create) [] = Some _)].
      - split; [cbn; lia|]. split; [|constructor]. intros [X|[X|(c & [] & _)]]; discriminate. }
    destruct Q as (_ & _ & Q). apply Forall_app in Q. destruct Q as [Q _]. rewrite Forall_forall in Q. destruct (Q p) as (_ & e & He & Ec); [apply in_flat_map; eauto|exact E|].
    exists e. split; [exact He|]. rewrite E, Ec. symmetry. apply canon_nil; auto.
  - pose proof (quiet_stream _ _ _ _ _ _ _ _ _ _ H) as R. destruct (C46_attributed_points_are_recorded _ _ _ _ _ _ _ _ _ _ _ _ _ o p Hs R Ho Hp E) as (e & H1 & H2 & _). eauto.
Qed.
Print Assumptions C46_only_recorded_points.

(** * C50 *)

(** Gauges: the aggregator keeps the last value (last_value.rs:23-47), so a point
    carries the last measurement of its set in its window. *)
Definition assign {V} (_ : V) (v : V) : V := v.
Lemma fold_assign {V} (l : list V) : forall z, fold_left assign l z = last l z.
Proof.
  induction l as [|x l IH]; intros z; [reflexivity|]. cbn [fold_left]. rewrite IH. unfold assign. destruct l as [|y l]; [reflexivity|].
  change (last (x :: y :: l) z) with (last (y :: l) z). clear. revert y. induction l as [|w l IH]; intros y; [reflexivity|]. change (last (w :: l) x = last (w :: l) z). apply IH.
Qed.
Theorem C50_last_value : forall Vl V veq yes srt keep (zero : V) limit delta acts s o p,
  sorter_ok (Vl := Vl) srt -> stream_run veq yes srt keep zero assign limit delta acts = Some s -> In o (v_outs s) -> In p (o_pts o) ->
  o_start o <= p_upto p <= o_stop o /\
  p_val p = last (recorded veq (sort_and_dedup srt (p_attrs p)) (window (p_from p) (p_upto p) (v_hist s))) zero /\
  (p_attrs p <> [] -> recorded veq (sort_and_dedup srt (p_attrs p)) (window (p_from p) (p_upto p) (v_hist s)) <> []).
Proof.
  intros Vl V veq yes srt keep zero limit delta acts s o p Hs H Ho Hp. pose proof (stream_inv _ _ _ _ _ _ _ _ _ _ Hs H) as I.
  assert (O := proj1 (Forall_forall _ _) (vi_outs _ _ _ _ _ _ _ _ I) o Ho). destruct (oo_pts _ _ _ _ _ _ _ _ O p Hp) as ([X1 X2] & X3 & _). split; [exact X3|]. split.
  - rewrite X2. unfold agg. rewrite fold_assign, recorded_vals. reflexivity.
  - intros Hn. destruct (C46_attributed_points_are_recorded _ _ _ _ _ _ _ _ _ _ _ _ _ o p Hs H Ho Hp Hn) as (e & He & Hc & _). intros E. unfold recorded in E. apply map_eq_nil in E.
    assert (Hin : In e (List.filter (fun e => if attrs_eq_dec veq (a_class e) (sort_and_dedup srt (p_attrs p)) then true else false) (window (p_from p) (p_upto p) (v_hist s)))).
    { apply filter_In. split; [exact He|]. destruct (attrs_eq_dec veq _ _); [reflexivity|contradiction]. }
    rewrite E in Hin. destruct Hin.
Qed.
Print Assumptions C50_last_value.

(** * Runs that meet the hypotheses *)
Definition ka (n : nat) : kv nat := (of_string "a", n).
Definition kb (n : nat) : kv nat := (of_string "b", n).
(** Two threads, attributes in both orders, a limit of two sets. *)
Definition busy : list (vaction (KV := kv nat) (V := Z)) :=
  [Measure [ka 1; kb 2] 5%Z; MStep 0; MStep 0; Measure [kb 2; ka 1] 7%Z; MStep 1; Measure [] 3%Z; MStep 2; MStep 2;
   Measure [ka 2] 1%Z; Measure [ka 3] 1%Z; MStep 3; MStep 4; MStep 4; MStep 3; Measure [ka 4] 10%Z; MStep 5; MStep 5].
Definition shown (s : vstate (KV := kv nat) (A := Z) (V := Z)) : list (list (list nat * Z)) :=
  map (fun o => map (fun p => (map snd (p_attrs p), p_val p)) (o_pts o)) (v_outs s).
Definition cumulative_run := busy ++ [Collect; CStep []; CStep [2; 0; 1]; CStep []; CStep []; CStep []; CStep []].
Definition delta_run := busy ++ [Collect; CStep []; Measure [kb 2; ka 1] 4%Z; MStep 6; CStep [2; 0; 1]; Measure [ka 1; kb 2] 6%Z; MStep 7; MStep 7; Collect; CStep [0]].
Example C42_nonvacuous : exists s, ex_run false cumulative_run = Some s /\ shown s = [[([], 3%Z); ([1], 11%Z); ([1; 2], 12%Z); ([3], 1%Z)]].
Proof. vm_compute. eexists. split; reflexivity. Qed.
Example C43_nonvacuous : exists s o, ex_run false cumulative_run = Some s /\ In o (v_outs s) /\ o_start o = o_stop o /\
  (forall e, In e (firstn (o_start o) (v_hist s)) -> In (a_call e) (o_done o)) /\ o_nofrom o = o_mapfrom o /\ length (o_pts o) = 4 /\
  exists e, In e (window (o_mapfrom o) (o_mapupto o) (v_hist s)) /\ a_class e <> sort_and_dedup isort (a_attrs e).
Proof.
  unfold ex_run. eexists. eexists. split; [vm_compute; reflexivity|]. split; [left; reflexivity|]. split; [reflexivity|]. split.
  - intros e He. vm_compute in He. vm_compute. repeat destruct He as [<-|He]; cbn; tauto.
  - split; [reflexivity|]. split; [reflexivity|]. eexists. split; [vm_compute; right; right; right; right; left; reflexivity|]. vm_compute. discriminate.
Qed.
Example C44_nonvacuous : exists s, ex_run true delta_run = Some s /\ v_pc s = CIdle /\ shown s = [[([], 3%Z); ([1], 11%Z); ([1; 2], 16%Z); ([3], 1%Z)]; [([1; 2], 6%Z)]].
Proof. vm_compute. eexists. repeat split. Qed.
Example C46_nonvacuous : exists s, quiet_run Nat.eq_dec 1 isort None 0%Z (fun a v => wrap_u64 (a + v)) 2 (v_init 0%Z) delta_run s /\ length (v_outs s) = 2.
Proof.
  eexists. split.
  - unfold delta_run, busy. cbn [app quiet_run]. repeat (split; [first [exact I | unfold undisturbed; vm_compute; intros E; first [discriminate | split; [reflexivity|intros c Hc; repeat destruct Hc as [<-|Hc]; first [destruct Hc | discriminate]]]]|]; eexists; split; [vm_compute; reflexivity|]). reflexivity.
  - reflexivity.
Qed.
(** The gauge keeps the last of two values. *)
Example C50_nonvacuous : exists s, stream_run Nat.eq_dec 1 isort None 0%Z assign 2 false cumulative_run = Some s /\ shown s = [[([], 3%Z); ([1], 10%Z); ([1; 2], 7%Z); ([3], 1%Z)]].
Proof. vm_compute. eexists. split; reflexivity. Qed.
