(** C53, C54, C73, C74: streams, aggregators and measurements. *)
From Coq Require Import List Bool Arith NArith ZArith Lia String.
From Verif Require Import Str StrProofs F64 InstrModel InstrProps ProviderModel ProviderProps PipelineModel.
Import ListNotations.

(** ** What is asked of the SDK, without caches *)
Section spec.
Context {KV V : Type}.
Variable sc_dec : forall x y : scope KV, {x = y} + {x <> y}.
Variable views : list (instrument KV -> option stream).
Notation args := (@args KV).
Notation key := (@key KV).
Notation event := (@event KV V).

(** The streams an instrument is configured to feed: those of the matching views,
    or the default one. *)
Definition selected (i : instrument KV) : list stream :=
  flat_map (fun v : instrument KV -> option stream => match v i with Some s => [s] | None => [] end) views.
(** The instrument as its builder describes it: this is what views are asked about. *)
Definition described (a : args) : instrument KV :=
  mk_inst (a_name a) (match a_desc a with Some d => d | None => [] end) (Some (a_kind a))
    (match a_unit a with Some u => u | None => [] end) (a_scope a).
(** The stream without views: the same name, description and unit, all attributes, and
    for a histogram the boundaries it was built with, if any. *)
Definition plain (a : args) : stream :=
  mk_stream (a_name a) (match a_desc a with Some d => d | None => [] end) (match a_unit a with Some u => u | None => [] end)
    (match a_kind a, a_bounds a with KHistogram, Some b => Some (AExplicit b true) | _, _ => None end) None (a_limit a).
Definition streams (a : args) : list stream :=
  match selected (described a) with
  | [] => [plain a]
  | l => l
  end.
Lemma described_inst a : described a = the_inst a.
Proof. reflexivity. Qed.
Lemma plain_default a : plain a = default_stream (the_inst a) (the_bounds a) (a_limit a).
Proof. unfold plain, default_stream, the_bounds. destruct (a_kind a), (a_bounds a); reflexivity. Qed.
(** The identity of an output stream; names are case-insensitive. *)
Definition out_key (a : args) (s : stream) : key :=
  mk_key (a_scope a) (a_num a) (a_kind a) (to_lower (st_name s)) (st_desc s) (st_unit s).
Definition stream_ok (a : args) (s : stream) : bool := compatible (a_kind a) (effective (a_kind a) (st_agg s)).
(** Instruments that record: valid parameters, and every stream can be built. *)
Definition valid (a : args) : bool := create_ok (a_kind a) (a_name a) (a_unit a) (a_bounds a).
Definition live (a : args) : bool := valid a && forallb (stream_ok a) (streams a).
Definition feeds (a : args) (k : key) : bool :=
  existsb (fun s => if key_dec sc_dec (out_key a s) k then true else false) (streams a).
(** No two streams of one instrument differ only in the case of their names, and
    those of the same identity are all compatible with the instrument or all not. *)
Definition coherent (a : args) : Prop := forall s1 s2, In s1 (streams a) -> In s2 (streams a) ->
  out_key a s1 = out_key a s2 -> st_name s1 = st_name s2 /\ stream_ok a s1 = stream_ok a s2.

(** The kinds whose values come from callbacks. *)
Definition by_callback (k : kind) : bool :=
  match k with KObsCounter | KObsUpDown | KObsGauge => true | KCounter | KUpDown | KGauge | KHistogram => false end.
(** What a stream should have received: each measurement through an instrument
    feeding it, once, in order. *)
Definition received (created : list args) (k : key) (e : event) : list (source * V) :=
  match e with
  | Create _ => []
  | Measure h v =>
    match nth_error created h with
    | Some a => if negb (by_callback (a_kind a)) && live a && feeds a k then [(Direct, v)] else []
    | None => []
    end
  | Collect r obs =>
    flat_map (fun h => match nth_error created h with
                       | Some a => if by_callback (a_kind a) && live a && feeds a k
                                   then flat_map (fun j => map (pair (During r)) (obs h j)) (seq 0 (a_callbacks a)) else []
                       | None => []
                       end) (seq 0 (List.length created))
  end.
Definition creates (e : event) : list args := match e with Create a => [a] | _ => [] end.
Fixpoint expected (created : list args) (k : key) (es : list event) : list (source * V) :=
  match es with
  | [] => []
  | e :: es => received created k e ++ expected (created ++ creates e) k es
  end.

(** The streams asked for, in order, and the output streams they define: the first
    request for an identity decides (also that there is none, for Drop). *)
Definition requests (es : list event) : list (args * stream) :=
  flat_map (fun e => match e with
                     | Create a => if valid a then map (pair a) (streams a) else []
                     | _ => []
                     end) es.
Record config := mk_cfg { c_key : key; c_name : str; c_desc : str; c_unit : str; c_impl : impl; c_keys : option (list str); c_limit : N }.
Definition config_of (a : args) (s : stream) : list config :=
  match aggregate_fn (effective (a_kind a) (st_agg s)) (a_kind a) with
  | Ok (Some i) => [mk_cfg (out_key a s) (st_name s) (st_desc s) (st_unit s) i (st_keys s) (match st_limit s with Some l => l | None => 2000%N end)]
  | _ => []
  end.
Fixpoint first_requests (done : list key) (rs : list (args * stream)) : list config :=
  match rs with
  | [] => []
  | (a, s) :: rs =>
    if stream_ok a s then
      if in_dec (key_dec sc_dec) (out_key a s) done then first_requests done rs
      else config_of a s ++ first_requests (out_key a s :: done) rs
    else first_requests done rs
  end.
Definition cfg (s : @sync KV V) : config := mk_cfg (s_key s) (s_name s) (s_desc s) (s_unit s) (s_impl s) (s_keys s) (s_limit s).

(** ** One pipeline *)
Notation pipe := (@pipe KV V).
Notation find_cache := (find_cache sc_dec).
Definition pinv (p : pipe) : Prop :=
  (forall k i, find_cache k (p_cache p) = Some (Ok (Some i)) -> exists s, nth_error (p_syncs p) i = Some s /\ s_key s = k) /\
  (forall i s, nth_error (p_syncs p) i = Some s -> find_cache (s_key s) (p_cache p) = Some (Ok (Some i))) /\
  (forall k, find_cache k (p_cache p) <> Some Err).
Definition cached (k : key) (p : pipe) : Prop := exists r, find_cache k (p_cache p) = Some r.
(** [p'] has [p]'s aggregators and perhaps more, with identities new to the cache. *)
Definition ext (p p' : pipe) : Prop :=
  (exists l, p_syncs p' = p_syncs p ++ l) /\
  (forall k r, find_cache k (p_cache p) = Some r -> find_cache k (p_cache p') = Some r).

Lemma find_app k c1 c2 : find_cache k (c1 ++ c2) = match find_cache k c1 with Some r => Some r | None => find_cache k c2 end.
Proof. induction c1 as [|[k' r] c1 IH]; [reflexivity|]. cbn. destruct (key_dec sc_dec k' k); auto. Qed.
Lemma ext_refl p : ext p p.
Proof. split; [exists []; now rewrite app_nil_r|auto]. Qed.
Lemma ext_trans p q r : ext p q -> ext q r -> ext p r.
Proof.
  intros [[l1 E1] H1] [[l2 E2] H2]. split; [|auto]. exists (l1 ++ l2). rewrite E2, E1. now rewrite app_assoc.
Qed.

Lemma aggregate_ok a k : compatible k a = true -> aggregate_fn a k <> Err.
Proof. destruct a, k; cbn; congruence. Qed.

Lemma ca_spec sc n k s p p' r :
  cached_aggregator sc_dec sc n k s p = (p', r) -> pinv p ->
  let c := compatible k (effective k (st_agg s)) in
  let id := normalize (inst_id sc n k s) in
  pinv p' /\ ext p p' /\ (c = false -> p' = p /\ r = Err) /\
  (c = true -> find_cache id (p_cache p') = Some r /\ r <> Err) /\
  (forall k', cached k' p' <-> cached k' p \/ (c = true /\ k' = id)).
Proof.
  intros H Hp c id. unfold cached_aggregator in H. fold c in H. fold id in H. destruct c eqn:Ec.
  2:{ injection H as <- <-. split; [exact Hp|]. split; [apply ext_refl|]. split; [auto|]. split; [discriminate|].
      intros k'. split; [auto|intros [A|[A _]]; [exact A|discriminate]]. }
  destruct Hp as (P1 & P2 & P3).
  destruct (find_cache id (p_cache p)) as [r0|] eqn:Ef.
  { injection H as <- <-. split; [exact (conj P1 (conj P2 P3))|]. split; [apply ext_refl|]. split; [discriminate|].
    split; [intros _; split; [exact Ef|intros ->; exact (P3 _ Ef)]|].
    intros k'. split; [auto|intros [A|[_ ->]]; [exact A|exists r0; exact Ef]]. }
  assert (Hother : forall k' r1, find_cache k' (p_cache p ++ [(id, r1)]) = match find_cache k' (p_cache p) with Some r => Some r | None => if key_dec sc_dec id k' then Some r1 else None end).
  { intros k' r1. rewrite find_app. reflexivity. }
  assert (Hnew : forall r1, find_cache id (p_cache p ++ [(id, r1)]) = Some r1).
  { intros r1. rewrite Hother, Ef. destruct (key_dec sc_dec id id); congruence. }
  assert (Hc : forall q r1, p_cache q = p_cache p ++ [(id, r1)] -> forall k', cached k' q <-> cached k' p \/ (true = true /\ k' = id)).
  { intros q r1 Eq k'. unfold cached. rewrite Eq, Hother. destruct (find_cache k' (p_cache p)) as [r2|] eqn:E2.
    - split; [left; eauto|intros _; eauto].
    - destruct (key_dec sc_dec id k') as [<-|Hne]; split.
      + auto. + intros _. eauto. + intros [x Hx]. discriminate. + intros [[x Hx]|[_ ->]]; [discriminate|congruence]. }
  assert (He : forall q r1 l, p_cache q = p_cache p ++ [(id, r1)] -> p_syncs q = p_syncs p ++ l -> ext p q).
  { intros q r1 l Eq El. split; [eauto|]. intros k' r2 H2. rewrite Eq, Hother, H2. reflexivity. }
  destruct (aggregate_fn (effective k (st_agg s)) k) as [[i|]|] eqn:Ea.
  - injection H as <- <-. split.
    + split; [|split]; cbn [p_cache p_syncs].
      * intros k' i' H. rewrite Hother in H. destruct (find_cache k' (p_cache p)) as [r2|] eqn:E2.
        -- injection H as ->. destruct (P1 k' i' E2) as (s' & Es & Ek). exists s'. split; [|exact Ek].
           rewrite nth_error_app1; [exact Es|]. apply nth_error_Some. congruence.
        -- destruct (key_dec sc_dec id k') as [<-|]; [|discriminate]. injection H as <-.
           eexists. rewrite nth_error_app2, Nat.sub_diag by lia. split; reflexivity.
      * intros i' s' H. destruct (Nat.lt_ge_cases i' (List.length (p_syncs p))) as [L|L].
        -- rewrite nth_error_app1 in H by exact L. rewrite Hother, (P2 i' s' H). reflexivity.
        -- rewrite nth_error_app2 in H by exact L. destruct (i' - List.length (p_syncs p))%nat as [|j] eqn:Ej; [|destruct j; discriminate].
           injection H as <-. cbn [s_key]. rewrite Hnew. repeat f_equal. lia.
      * intros k' H. rewrite Hother in H. destruct (find_cache k' (p_cache p)) as [r2|] eqn:E2; [injection H as ->; exact (P3 _ E2)|].
        destruct (key_dec sc_dec id k'); discriminate.
    + split; [eapply He; reflexivity|]. split; [discriminate|]. split; [intros _; split; [apply Hnew|discriminate]|]. eapply Hc. reflexivity.
  - injection H as <- <-. split.
    + split; [|split]; cbn [p_cache p_syncs].
      * intros k' i' H. rewrite Hother in H. destruct (find_cache k' (p_cache p)) as [r2|] eqn:E2.
        -- injection H as ->. exact (P1 k' i' E2).
        -- destruct (key_dec sc_dec id k'); discriminate.
      * intros i' s' H. rewrite Hother, (P2 i' s' H). reflexivity.
      * intros k' H. rewrite Hother in H. destruct (find_cache k' (p_cache p)) as [r2|] eqn:E2; [injection H as ->; exact (P3 _ E2)|].
        destruct (key_dec sc_dec id k'); discriminate.
    + split; [eapply He; [reflexivity|symmetry; apply app_nil_r]|]. split; [discriminate|]. split; [intros _; split; [apply Hnew|discriminate]|]. eapply Hc. reflexivity.
  - exfalso. exact (aggregate_ok _ _ Ec Ea).
Qed.

(** Effect on the configurations. *)
Lemma ca_cfg a s p : pinv p ->
  map cfg (p_syncs (fst (cached_aggregator sc_dec (a_scope a) (a_num a) (a_kind a) s p))) =
  map cfg (p_syncs p) ++ (if stream_ok a s then if in_dec (key_dec sc_dec) (out_key a s) (map fst (p_cache p)) then [] else config_of a s else []).
Proof.
  intros Hp. unfold cached_aggregator, stream_ok, config_of. change (normalize (inst_id (a_scope a) (a_num a) (a_kind a) s)) with (out_key a s).
  destruct (compatible (a_kind a) (effective (a_kind a) (st_agg s))) eqn:Ec; [|cbn; now rewrite app_nil_r].
  assert (Hin : forall c, In (out_key a s) (map fst c) <-> find_cache (out_key a s) c <> None).
  { induction c as [|[k' r] c IH]; cbn; [tauto|]. destruct (key_dec sc_dec k' (out_key a s)); [split; [congruence|auto]|].
    rewrite <- IH. tauto. }
  destruct (find_cache (out_key a s) (p_cache p)) as [r|] eqn:Ef.
  - destruct (in_dec _ _ _) as [_|Hn]; [cbn; now rewrite app_nil_r|]. exfalso. apply Hn, Hin. congruence.
  - destruct (in_dec _ _ _) as [Hn|_]; [exfalso; apply Hin in Hn; congruence|].
    destruct (aggregate_fn (effective (a_kind a) (st_agg s)) (a_kind a)) as [[i|]|]; cbn [fst p_syncs].
    + rewrite map_app. reflexivity.
    + now rewrite app_nil_r.
    + now rewrite app_nil_r.
Qed.
Lemma in_cache_cached k p : In k (map fst (p_cache p)) <-> cached k p.
Proof.
  unfold cached. induction (p_cache p) as [|[k' r] c IH]; cbn; [split; [tauto|intros [x H]; discriminate]|].
  destruct (key_dec sc_dec k' k) as [->|]; [split; eauto|]. rewrite <- IH. tauto.
Qed.

(** Asking for a list of streams. *)
Definition ask (a : args) (p : pipe) (s : stream) : pipe := fst (cached_aggregator sc_dec (a_scope a) (a_num a) (a_kind a) s p).
Lemma ask_spec a s p : pinv p -> pinv (ask a p s) /\ ext p (ask a p s) /\
  (stream_ok a s = false -> ask a p s = p) /\
  (forall k', cached k' (ask a p s) <-> cached k' p \/ (stream_ok a s = true /\ k' = out_key a s)).
Proof.
  intros Hp. unfold ask. destruct (cached_aggregator _ _ _ _ _ _) as [p' r] eqn:E. destruct (ca_spec _ _ _ _ _ _ _ E Hp) as (A & B & C & D & F).
  split; [exact A|]. split; [exact B|]. split; [|exact F]. intros H. now apply C.
Qed.
Lemma asks_spec a l : forall p, pinv p -> let p' := fold_left (ask a) l p in pinv p' /\ ext p p' /\
  (forall k', cached k' p' <-> cached k' p \/ exists s, In s l /\ stream_ok a s = true /\ k' = out_key a s).
Proof.
  induction l as [|s l IH]; intros p Hp p'; subst p'; cbn [fold_left].
  - split; [exact Hp|]. split; [apply ext_refl|]. intros k'. split; [auto|intros [A|(s & [] & _)]; exact A].
  - destruct (ask_spec a s p Hp) as (A & B & _ & D). destruct (IH _ A) as (A' & B' & D').
    split; [exact A'|]. split; [eapply ext_trans; eassumption|]. intros k'. rewrite D', D. split.
    + intros [[H|[H1 H2]]|(s' & H1 & H2)]; [auto|right; exists s; cbn; auto|right; exists s'; cbn; auto].
    + intros [H|(s' & [<-|H1] & H2 & H3)]; [auto|auto|right; exists s'; auto].
Qed.
Lemma first_requests_ext rs : forall d1 d2, (forall k, In k d1 <-> In k d2) -> first_requests d1 rs = first_requests d2 rs.
Proof.
  induction rs as [|[a s] rs IH]; intros d1 d2 H; [reflexivity|]. cbn. destruct (stream_ok a s); [|auto].
  destruct (in_dec _ _ d1) as [A|A], (in_dec _ _ d2) as [B|B];
    [apply IH; exact H|exfalso; apply B, H, A|exfalso; apply A, H, B|].
  f_equal. apply IH. cbn. intros k. rewrite H. tauto.
Qed.
Lemma asks_cfg a l : forall p, pinv p ->
  map cfg (p_syncs (fold_left (ask a) l p)) = map cfg (p_syncs p) ++ first_requests (map fst (p_cache p)) (map (pair a) l).
Proof.
  induction l as [|s l IH]; intros p Hp; [cbn; now rewrite app_nil_r|]. cbn [fold_left map first_requests].
  destruct (ask_spec a s p Hp) as (A & B & C & D). rewrite IH by exact A. unfold ask at 1. rewrite ca_cfg by exact Hp.
  rewrite <- app_assoc. f_equal. destruct (stream_ok a s) eqn:Es.
  - destruct (in_dec _ _ _) as [Hi|Hi]; cbn.
    + apply first_requests_ext. intros k. rewrite !in_cache_cached, D. rewrite in_cache_cached in Hi.
      split; [intros [H|[_ ->]]; assumption|auto].
    + f_equal. apply first_requests_ext. intros k. rewrite in_cache_cached, D. cbn. rewrite in_cache_cached. split.
      * intros [H|[_ ->]]; auto.
      * intros [<-|H]; auto.
  - now rewrite (C eq_refl).
Qed.

(** The loop over the views. *)
Definition sel (vs : list (instrument KV -> option stream)) (i : instrument KV) : list stream :=
  flat_map (fun v : instrument KV -> option stream => match v i with Some s => [s] | None => [] end) vs.
Definition seen_ok (seen : list key) (ms : list nat) (p : pipe) : Prop :=
  (forall id, In id seen -> exists i, In i ms /\ find_cache (normalize id) (p_cache p) = Some (Ok (Some i))) /\
  (forall i, In i ms -> exists id, In id seen /\ find_cache (normalize id) (p_cache p) = Some (Ok (Some i))).
Lemma out_key_id a s : out_key a s = normalize (inst_id (i_scope (the_inst a)) (a_num a) (a_kind a) s).
Proof. reflexivity. Qed.
Notation raw a := (inst_id (a_scope a) (a_num a) (a_kind a)).
Lemma ask_cached a s p i : pinv p -> find_cache (out_key a s) (p_cache p) = Some (Ok (Some i)) -> ask a p s = p.
Proof.
  intros Hp H. destruct (stream_ok a s) eqn:Es; [|now apply (ask_spec a s p Hp)].
  unfold ask, cached_aggregator. unfold stream_ok in Es. rewrite Es.
  change (normalize (inst_id (a_scope a) (a_num a) (a_kind a) s)) with (out_key a s). rewrite H. reflexivity.
Qed.
Lemma view_loop_spec a vs : forall p m seen ms err p' m' ms' err',
  view_loop sc_dec (the_inst a) (a_num a) (a_kind a) vs p m seen ms err = (p', m', ms', err') ->
  pinv p -> seen_ok seen ms p ->
  let l := sel vs (the_inst a) in
  p' = fold_left (ask a) l p /\
  m' = m || negb (match l with [] => true | _ => false end) /\
  ((forall s, In s l -> In (raw a s) seen -> stream_ok a s = true) ->
   (forall s1 s2, In s1 l -> In s2 l -> raw a s1 = raw a s2 -> stream_ok a s1 = stream_ok a s2) ->
   err' = err || negb (forallb (stream_ok a) l)) /\
  ((forall s1 s2, In s1 l -> In s2 l -> raw a s1 = raw a s2 -> stream_ok a s1 = stream_ok a s2) ->
   forall i, In i ms' <-> In i ms \/ exists s, In s l /\ stream_ok a s = true /\ find_cache (out_key a s) (p_cache p') = Some (Ok (Some i))) /\
  ((forall id1 id2, In id1 (seen ++ map (raw a) l) -> In id2 (seen ++ map (raw a) l) -> normalize id1 = normalize id2 -> id1 = id2) ->
   NoDup ms -> NoDup ms').
Proof.
  induction vs as [|v vs IH]; intros p m seen ms err p' m' ms' err' H Hp Hs l.
  - cbn in H. injection H as <- <- <- <-. subst l. cbn. rewrite !orb_false_r. repeat split; auto.
    intros [A|(s & [] & _)]. exact A.
  - cbn [view_loop] in H. subst l. cbn [sel flat_map]. destruct (v (the_inst a)) as [s|] eqn:Ev.
    2:{ cbn [app]. exact (IH _ _ _ _ _ _ _ _ _ H Hp Hs). }
    cbn [app]. fold (sel vs (the_inst a)).
    change (inst_id (i_scope (the_inst a)) (a_num a) (a_kind a) s) with (raw a s) in H.
    assert (Eid : out_key a s = normalize (raw a s)) by reflexivity.
    destruct (in_dec (key_dec sc_dec) (raw a s) seen) as [Hi|Hi].
    + destruct Hs as [Hs1 Hs2]. destruct (Hs1 _ Hi) as (i0 & Hi0 & Hf0). rewrite <- Eid in Hf0.
      specialize (IH _ _ _ _ _ _ _ _ _ H Hp (conj Hs1 Hs2)). cbn zeta in IH. destruct IH as (I1 & I2 & I3 & I4 & I5).
      assert (Hask : ask a p s = p) by (eapply ask_cached; eassumption).
      cbn [fold_left]. rewrite Hask. split; [exact I1|]. split; [rewrite I2; cbn; destruct m; reflexivity|]. split; [|split].
      * intros H1 H2. rewrite I3; [|intros s' Hs'; apply H1; right; exact Hs'|intros s1 s2 A B; apply H2; right; assumption].
        cbn [forallb]. rewrite (H1 s (or_introl eq_refl) Hi). reflexivity.
      * intros H2 i. rewrite I4; [|intros s1 s2 A B; apply H2; right; assumption]. split.
        -- intros [A|(s' & A & B)]; [auto|right; exists s'; cbn; auto].
        -- intros [A|(s' & [<-|A] & B & C)]; [auto| |right; exists s'; auto].
           left. destruct (asks_spec a (sel vs (the_inst a)) p Hp) as (_ & [_ E] & _). rewrite <- I1 in E.
           rewrite (E _ _ Hf0) in C. injection C as <-. exact Hi0.
      * intros H2. apply I5. intros id1 id2 A B. apply H2; rewrite in_app_iff in *; cbn; tauto.
    + destruct (cached_aggregator sc_dec (i_scope (the_inst a)) (a_num a) (a_kind a) s p) as [q r] eqn:Eca.
      assert (Eq : q = ask a p s) by (unfold ask; change (a_scope a) with (i_scope (the_inst a)); rewrite Eca; reflexivity).
      destruct (ca_spec _ _ _ _ _ _ _ Eca Hp) as (Hq & [Hx Hy] & Hbad & Hgood & _).
      change (compatible (a_kind a) (effective (a_kind a) (st_agg s))) with (stream_ok a s) in *.
      change (normalize (inst_id (i_scope (the_inst a)) (a_num a) (a_kind a) s)) with (out_key a s) in *.
      assert (Hs' : seen_ok seen ms q).
      { destruct Hs as [Hs1 Hs2]. split.
        - intros id A. destruct (Hs1 id A) as (i & B & C). exists i. auto.
        - intros i A. destruct (Hs2 i A) as (id & B & C). exists id. auto. }
      cbn [fold_left]. rewrite <- Eq. destruct r as [[i0|]|].
      * assert (Hok : stream_ok a s = true) by (destruct (stream_ok a s); [reflexivity|]; destruct (Hbad eq_refl); discriminate).
        destruct (Hgood Hok) as [Hf _].
        assert (Hs'' : seen_ok (raw a s :: seen) (ms ++ [i0]) q).
        { destruct Hs' as [Hs1 Hs2]. split.
          - intros id [<-|A]; [exists i0; split; [rewrite in_app_iff; cbn; auto|rewrite <- Eid; exact Hf]|].
            destruct (Hs1 id A) as (i & B & C). exists i. rewrite in_app_iff. auto.
          - intros i A. rewrite in_app_iff in A. destruct A as [A|[<-|[]]].
            + destruct (Hs2 i A) as (id & B & C). exists id. cbn. auto.
            + exists (raw a s). rewrite <- Eid. cbn. auto. }
        specialize (IH _ _ _ _ _ _ _ _ _ H Hq Hs''). cbn zeta in IH. destruct IH as (I1 & I2 & I3 & I4 & I5).
        split; [exact I1|]. split; [rewrite I2; cbn; destruct m; reflexivity|]. split; [|split].
        -- intros H1 H2. cbn [forallb]. rewrite Hok. apply I3.
           ++ intros s' A [B|B]; [|apply H1; [right; exact A|exact B]]. rewrite <- (H2 s s'); [exact Hok|left; reflexivity|right; exact A|exact B].
           ++ intros s1 s2 A B. apply H2; right; assumption.
        -- intros H2 i. rewrite I4; [|intros s1 s2 A B; apply H2; right; assumption].
           assert (Hf' : find_cache (out_key a s) (p_cache p') = Some (Ok (Some i0))).
           { destruct (asks_spec a (sel vs (the_inst a)) q Hq) as (_ & [_ E] & _). rewrite <- I1 in E. auto. }
           rewrite in_app_iff. cbn [In]. split.
           ++ intros [[A|[<-|[]]]|(s' & A & B)]; [auto|right; exists s; cbn; auto|right; exists s'; cbn; auto].
           ++ intros [A|(s' & [<-|A] & B & C)]; [auto| |right; exists s'; auto]. left. right. left. congruence.
        -- intros H2 Hnd. apply I5.
           ++ intros id1 id2 A B. apply H2; rewrite in_app_iff in *; cbn in *; tauto.
           ++ assert (Hni : ~ In i0 ms).
              { intros A. destruct Hs' as [_ Hs2]. destruct (Hs2 _ A) as (id & B & C). destruct Hq as (Q1 & Q2 & _).
                destruct (Q1 _ _ C) as (sy & E1 & E2). destruct (Q1 _ _ Hf) as (sy' & E1' & E2').
                rewrite E1 in E1'. injection E1' as <-. apply Hi. rewrite <- (H2 id (raw a s)); [exact B| | |congruence].
                - rewrite in_app_iff. auto.
                - rewrite in_app_iff. cbn. auto. }
              clear - Hnd Hni. induction ms as [|x ms IHm]; [constructor; [cbn; tauto|constructor]|]. inversion Hnd; subst.
              cbn. constructor; [rewrite in_app_iff; cbn in *; intuition congruence|]. apply IHm; [assumption|cbn in Hni; tauto].
      * assert (Hok : stream_ok a s = true) by (destruct (stream_ok a s); [reflexivity|]; destruct (Hbad eq_refl); discriminate).
        destruct (Hgood Hok) as [Hf _].
        specialize (IH _ _ _ _ _ _ _ _ _ H Hq Hs'). cbn zeta in IH. destruct IH as (I1 & I2 & I3 & I4 & I5).
        split; [exact I1|]. split; [rewrite I2; cbn; destruct m; reflexivity|]. split; [|split].
        -- intros H1 H2. cbn [forallb]. rewrite Hok. apply I3.
           ++ intros s' A B. apply H1; [right; exact A|exact B].
           ++ intros s1 s2 A B. apply H2; right; assumption.
        -- intros H2 i. rewrite I4; [|intros s1 s2 A B; apply H2; right; assumption].
           assert (Hf' : find_cache (out_key a s) (p_cache p') = Some (Ok None)).
           { destruct (asks_spec a (sel vs (the_inst a)) q Hq) as (_ & [_ E] & _). rewrite <- I1 in E. auto. }
           split.
           ++ intros [A|(s' & A & B)]; [auto|right; exists s'; cbn; auto].
           ++ intros [A|(s' & [<-|A] & B & C)]; [auto|congruence|right; exists s'; auto].
        -- intros H2 Hnd. apply I5; [|exact Hnd]. intros id1 id2 A B. apply H2; rewrite in_app_iff in *; cbn in *; tauto.
      * assert (Hok : stream_ok a s = false).
        { destruct (stream_ok a s); [|reflexivity]. destruct (Hgood eq_refl) as [_ Hne]. congruence. }
        specialize (IH _ _ _ _ _ _ _ _ _ H Hq Hs'). cbn zeta in IH. destruct IH as (I1 & I2 & I3 & I4 & I5).
        split; [exact I1|]. split; [rewrite I2; cbn; destruct m; reflexivity|]. split; [|split].
        -- intros H1 H2. cbn [forallb]. rewrite Hok. cbn. rewrite orb_true_r. rewrite I3; [reflexivity| |].
           ++ intros s' A B. apply H1; [right; exact A|exact B].
           ++ intros s1 s2 A B. apply H2; right; assumption.
        -- intros H2 i. rewrite I4; [|intros s1 s2 A B; apply H2; right; assumption]. split.
           ++ intros [A|(s' & A & B)]; [auto|right; exists s'; cbn; auto].
           ++ intros [A|(s' & [<-|A] & B & C)]; [auto|congruence|right; exists s'; auto].
        -- intros H2 Hnd. apply I5; [|exact Hnd]. intros id1 id2 A B. apply H2; rewrite in_app_iff in *; cbn in *; tauto.
Qed.

(** [Inserter::instrument]. *)
Lemma inserter_spec a p p' r :
  inserter_instrument sc_dec views (the_inst a) (a_num a) (a_kind a) (the_bounds a) (a_limit a) p = (p', r) -> pinv p ->
  p' = fold_left (ask a) (streams a) p /\
  (coherent a -> (is_err r = negb (forallb (stream_ok a) (streams a))) /\
     NoDup (measures_of r) /\
     (forallb (stream_ok a) (streams a) = true -> forall i, In i (measures_of r) <->
        exists s, nth_error (p_syncs p') i = Some s /\ feeds a (s_key s) = true)).
Proof.
  intros H Hp. unfold inserter_instrument in H.
  destruct (view_loop sc_dec (the_inst a) (a_num a) (a_kind a) views p false [] [] false) as [[[q m] ms] err] eqn:Ev.
  assert (H0 : seen_ok [] [] p) by (split; intros x []).
  destruct (view_loop_spec a views _ _ _ _ _ _ _ _ _ Ev Hp H0) as (I1 & I2 & I3 & I4 & I5).
  change (sel views (the_inst a)) with (selected (the_inst a)) in *.
  assert (Hfeeds : forall P, pinv P -> forall (l : list stream) i, (forall s, In s l <-> In s (streams a)) ->
     ((exists s, In s l /\ find_cache (out_key a s) (p_cache P) = Some (Ok (Some i))) <->
      exists sy, nth_error (p_syncs P) i = Some sy /\ feeds a (s_key sy) = true)).
  { intros P (P1 & P2 & _) l i Hl. unfold feeds. split.
    - intros (s & A & B). destruct (P1 _ _ B) as (sy & E1 & E2). exists sy. split; [exact E1|]. apply existsb_exists.
      exists s. split; [now apply Hl|]. destruct (key_dec sc_dec (out_key a s) (s_key sy)); congruence.
    - intros (sy & A & B). apply existsb_exists in B. destruct B as (s & B & C).
      destruct (key_dec sc_dec (out_key a s) (s_key sy)) as [E|]; [|discriminate]. exists s. split; [now apply Hl|].
      rewrite E. apply P2. exact A. }
  cbn [orb negb app] in *. unfold streams in *. rewrite described_inst, plain_default in *. destruct (selected (the_inst a)) as [|s0 l0] eqn:El.
  - cbn in I2. subst m. cbn [fold_left] in I1. subst q.
    assert (Hms : ms = []).
    { destruct ms as [|i ms]; [reflexivity|]. destruct (proj1 (I4 ltac:(intros s1 s2 []) i) (or_introl eq_refl)) as [[]|(s & [] & _)]. }
    subst ms. set (d := default_stream (the_inst a) (the_bounds a) (a_limit a)) in *.
    destruct (cached_aggregator sc_dec (i_scope (the_inst a)) (a_num a) (a_kind a) d p) as [p2 r2] eqn:Eca.
    assert (Eq : p2 = ask a p d) by (unfold ask; change (a_scope a) with (i_scope (the_inst a)); rewrite Eca; reflexivity).
    destruct (ca_spec _ _ _ _ _ _ _ Eca Hp) as (Hq & _ & Hbad & Hgood & _).
    change (compatible (a_kind a) (effective (a_kind a) (st_agg d))) with (stream_ok a d) in *.
    change (normalize (inst_id (i_scope (the_inst a)) (a_num a) (a_kind a) d)) with (out_key a d) in *.
    cbn [fold_left forallb]. rewrite <- Eq, andb_true_r. destruct r2 as [[i0|]|].
    + injection H as <- <-. split; [reflexivity|]. intros _. cbn [is_err measures_of app].
      assert (Hok : stream_ok a d = true) by (destruct (stream_ok a d); [reflexivity|]; destruct (Hbad eq_refl); discriminate).
      rewrite Hok. split; [reflexivity|]. split; [constructor; [tauto|constructor]|]. intros _ i. destruct (Hgood Hok) as [Hf _].
      rewrite <- (Hfeeds p2 Hq [d] i ltac:(reflexivity)). split.
      * intros [<-|[]]. exists d. split; [left; reflexivity|exact Hf].
      * intros (s & [<-|[]] & B). left. congruence.
    + injection H as <- <-. split; [reflexivity|]. intros _. cbn [is_err measures_of app].
      assert (Hok : stream_ok a d = true) by (destruct (stream_ok a d); [reflexivity|]; destruct (Hbad eq_refl); discriminate).
      rewrite Hok. split; [reflexivity|]. split; [constructor|]. intros _ i. destruct (Hgood Hok) as [Hf _].
      rewrite <- (Hfeeds p2 Hq [d] i ltac:(reflexivity)). split; [intros []|]. intros (s & [<-|[]] & B). congruence.
    + injection H as <- <-. split; [reflexivity|]. intros _. cbn [is_err measures_of].
      assert (Hok : stream_ok a d = false) by (destruct (stream_ok a d); [|reflexivity]; destruct (Hgood eq_refl); congruence).
      rewrite Hok. split; [reflexivity|]. split; [constructor|discriminate].
  - cbn in I2. subst m. injection H as <- <-. split; [exact I1|]. intros Hco.
    assert (Hco1 : forall s1 s2, In s1 (s0 :: l0) -> In s2 (s0 :: l0) -> raw a s1 = raw a s2 -> stream_ok a s1 = stream_ok a s2).
    { intros s1 s2 A B E. unfold coherent, streams in Hco. rewrite described_inst, El in Hco. apply (Hco s1 s2 A B). unfold out_key. injection E. intros. congruence. }
    specialize (I3 ltac:(intros s _ []) Hco1). specialize (I4 Hco1). cbn [orb] in I3. subst err.
    assert (Hnd : NoDup ms).
    { apply I5; [|constructor]. intros id1 id2 A B E. apply in_map_iff in A, B. destruct A as (s1 & <- & A). destruct B as (s2 & <- & B).
      unfold coherent, streams in Hco. rewrite described_inst, El in Hco. destruct (Hco s1 s2 A B E) as [En _].
      unfold inst_id. injection E. intros. congruence. }
    destruct (forallb (stream_ok a) (s0 :: l0)) eqn:Ef; cbn [negb is_err measures_of].
    + split; [reflexivity|]. split; [exact Hnd|]. intros _ i. rewrite I4.
      assert (Hq : pinv q) by (rewrite I1; apply asks_spec; exact Hp).
      rewrite <- (Hfeeds q Hq (s0 :: l0) i ltac:(reflexivity)). split.
      * intros [[]|(s & A & _ & B)]. exists s. auto.
      * intros (s & A & B). right. exists s. split; [exact A|]. split; [|exact B]. rewrite forallb_forall in Ef. now apply Ef.
    + split; [reflexivity|]. split; [constructor|discriminate].
Qed.

(** ** Executions *)
Notation mstate := (@mstate KV V).
Notation pstate := (@pstate KV V).
Notation mstep := (mstep sc_dec views).
Definition creations (es : list event) : list args := flat_map creates es.

Lemma expected_snoc k es : forall c e, expected c k (es ++ [e]) = expected c k es ++ received (c ++ creations es) k e.
Proof.
  induction es as [|x es IH]; intros c e; cbn [app expected creations flat_map].
  - rewrite app_nil_r. cbn. now rewrite app_nil_r.
  - rewrite IH, <- !app_assoc. reflexivity.
Qed.
Lemma expected_nil k es : forall c, (forall a, In a (c ++ creations es) -> live a && feeds a k = false) -> expected c k es = [].
Proof.
  induction es as [|x es IH]; intros c H; [reflexivity|]. cbn [expected creations flat_map] in *. rewrite IH.
  2:{ intros a Ha. apply H. rewrite !in_app_iff in *. tauto. }
  rewrite app_nil_r. assert (Hc : forall a, In a c -> live a && feeds a k = false) by (intros a Ha; apply H; rewrite in_app_iff; auto).
  destruct x as [a|h v|r obs]; cbn [received]; [reflexivity| |].
  - destruct (nth_error c h) as [a|] eqn:E; [|reflexivity]. apply nth_error_In in E. specialize (Hc a E).
    rewrite <- andb_assoc, Hc, andb_false_r. reflexivity.
  - induction (seq 0 (List.length c)) as [|h l IHl]; [reflexivity|]. cbn [flat_map]. rewrite IHl, app_nil_r.
    destruct (nth_error c h) as [a|] eqn:E; [|reflexivity]. apply nth_error_In in E. specialize (Hc a E).
    rewrite <- andb_assoc, Hc, andb_false_r. reflexivity.
Qed.

Definition add_log (src : source) (v : V) (s : @sync KV V) : @sync KV V :=
  mk_sync (s_key s) (s_name s) (s_desc s) (s_unit s) (s_impl s) (s_keys s) (s_limit s) (s_log s ++ [(src, v)]).
Lemma nth_log_one src v l i j : nth_error (log_one src v l i) j =
  if Nat.eq_dec i j then option_map (add_log src v) (nth_error l j) else nth_error l j.
Proof.
  unfold log_one. destruct (nth_error l i) as [s|] eqn:E.
  - rewrite nth_set_nth. destruct (Nat.eq_dec i j) as [<-|Hn].
    + rewrite Nat.eqb_refl, E. reflexivity.
    + destruct (Nat.eqb i j) eqn:Eb; [apply Nat.eqb_eq in Eb; congruence|]. reflexivity.
  - destruct (Nat.eq_dec i j) as [<-|]; [rewrite E|]; reflexivity.
Qed.
Lemma nth_log_all src v ms : NoDup ms -> forall l j, nth_error (fold_left (log_one src v) ms l) j =
  if in_dec Nat.eq_dec j ms then option_map (add_log src v) (nth_error l j) else nth_error l j.
Proof.
  induction 1 as [|i ms Hi Hnd IH]; intros l j; [reflexivity|]. cbn [fold_left]. rewrite IH, nth_log_one.
  destruct (in_dec Nat.eq_dec j ms) as [A|A], (in_dec Nat.eq_dec j (i :: ms)) as [B|B], (Nat.eq_dec i j) as [C|C]; try reflexivity;
  try (subst; contradiction); try (exfalso; cbn in B; tauto).
Qed.
Lemma cfg_log_one src v l i : map cfg (log_one src v l i) = map cfg l.
Proof.
  unfold log_one. destruct (nth_error l i) as [s|] eqn:E; [|reflexivity].
  revert i E. induction l as [|x l IH]; intros i E; [destruct i; discriminate|]. destruct i as [|i]; cbn in *.
  - injection E as ->. reflexivity.
  - f_equal. now apply IH.
Qed.
Lemma cfg_log_all src v ms : forall l, map cfg (fold_left (log_one src v) ms l) = map cfg l.
Proof. induction ms as [|i ms IH]; intros l; [reflexivity|]. cbn. rewrite IH. apply cfg_log_one. Qed.

Lemma key_cfg l l' i s : map cfg l = map cfg l' -> nth_error l i = Some s -> exists s', nth_error l' i = Some s' /\ s_key s' = s_key s.
Proof.
  intros E H. pose proof (map_nth_error cfg i l H) as H1. rewrite E in H1.
  rewrite nth_error_map in H1. destruct (nth_error l' i) as [s'|]; [|discriminate]. exists s'. split; [reflexivity|].
  cbn in H1. injection H1. intros. congruence.
Qed.
Lemma pinv_cfg p p' : p_cache p = p_cache p' -> map cfg (p_syncs p) = map cfg (p_syncs p') -> pinv p -> pinv p'.
Proof.
  intros Ec Es (P1 & P2 & P3). unfold pinv. rewrite <- Ec. split; [|split; [|exact P3]].
  - intros k i H. destruct (P1 k i H) as (s & A & B). destruct (key_cfg _ _ _ _ Es A) as (s' & A' & B'). exists s'. split; congruence.
  - intros i s H. symmetry in Es. destruct (key_cfg _ _ _ _ Es H) as (s' & A' & B'). rewrite <- B'. auto.
Qed.

(** The part that needs no assumption on the views. *)
Definition asked (es : list event) (k : key) : Prop := exists a s, In (a, s) (requests es) /\ stream_ok a s = true /\ k = out_key a s.
Definition PS0 (es : list event) (ps : pstate) : Prop :=
  pinv (ps_pipe ps) /\ (forall k, cached k (ps_pipe ps) <-> asked es k) /\
  map cfg (p_syncs (ps_pipe ps)) = first_requests [] (requests es).

Lemma requests_snoc es e : requests (es ++ [e]) = requests es ++ requests [e].
Proof. unfold requests. now rewrite flat_map_app. Qed.
Lemma requests_create a : valid a = true -> requests [Create a] = map (pair a) (streams a).
Proof. intros H. unfold requests. cbn. now rewrite H, app_nil_r. Qed.
Lemma first_requests_app rs2 : forall rs1 d, first_requests d (rs1 ++ rs2) =
  first_requests d rs1 ++ first_requests (map (fun r => out_key (fst r) (snd r)) (filter (fun r => stream_ok (fst r) (snd r)) rs1) ++ d) rs2.
Proof.
  induction rs1 as [|[a s] rs1 IH]; intros d; [reflexivity|]. cbn [app first_requests filter fst snd].
  destruct (stream_ok a s) eqn:Eo; [|apply IH]. cbn [map]. destruct (in_dec _ _ d) as [Hi|Hi].
  - rewrite IH. f_equal. apply first_requests_ext. intros k. cbn. rewrite !in_app_iff. cbn. split; [auto|intros [<-|H]; auto].
  - rewrite IH, <- app_assoc. f_equal. f_equal. apply first_requests_ext. intros k. cbn. rewrite !in_app_iff. cbn. tauto.
Qed.
Lemma asked_in es k : asked es k <-> In k (map (fun r => out_key (fst r) (snd r)) (filter (fun r => stream_ok (fst r) (snd r)) (requests es)) ++ []).
Proof.
  rewrite app_nil_r, in_map_iff. unfold asked. split.
  - intros (a & s & A & B & ->). exists (a, s). split; [reflexivity|]. apply filter_In. auto.
  - intros ([a s] & <- & A). apply filter_In in A. exists a, s. tauto.
Qed.
Lemma PS0_ask es a ps h : PS0 es ps -> valid a = true ->
  PS0 (es ++ [Create a]) (mk_ps (fold_left (ask a) (streams a) (ps_pipe ps)) h).
Proof.
  intros (A & B & C) Hv. destruct (asks_spec a (streams a) _ A) as (A' & E' & B'). split; [exact A'|]. split; cbn [ps_pipe].
  - intros k. rewrite B', B. unfold asked. rewrite requests_snoc, (requests_create a Hv). split.
    + intros [(a' & s & H1 & H2)|(s & H1 & H2)].
      * exists a', s. rewrite in_app_iff. tauto.
      * exists a, s. rewrite in_app_iff. split; [right; apply in_map; exact H1|exact H2].
    + intros (a' & s & H1 & H2 & H3). rewrite in_app_iff in H1. destruct H1 as [H1|H1]; [left; exists a', s; auto|].
      apply in_map_iff in H1. destruct H1 as (s' & E & H1). injection E as <- <-. right. exists s'. auto.
  - rewrite (asks_cfg a _ _ A), C, requests_snoc, first_requests_app. f_equal. rewrite (requests_create a Hv).
    apply first_requests_ext. intros k. rewrite in_cache_cached, B. apply asked_in.
Qed.
Lemma PS0_same es e ps ps' : PS0 es ps -> requests [e] = [] -> p_cache (ps_pipe ps) = p_cache (ps_pipe ps') ->
  map cfg (p_syncs (ps_pipe ps)) = map cfg (p_syncs (ps_pipe ps')) -> PS0 (es ++ [e]) ps'.
Proof.
  intros (A & B & C) Hr Ec Es. split; [exact (pinv_cfg _ _ Ec Es A)|]. unfold asked. rewrite requests_snoc, Hr, app_nil_r.
  split; [|congruence]. intros k. specialize (B k). unfold asked in B. rewrite <- B. unfold cached. now rewrite Ec.
Qed.

(** The pipelines of the next state. *)
Lemma combine_map {X Y} (f : X -> Y) l : combine l (map f l) = map (fun x => (x, f x)) l.
Proof. induction l; cbn; congruence. Qed.
Definition inserted (a : args) (ps : pstate) : pipe * result (list nat) :=
  inserter_instrument sc_dec views (the_inst a) (a_num a) (a_kind a) (the_bounds a) (a_limit a) (ps_pipe ps).
Definition record_many (src : source) (l : list (nat * V)) (ps : pstate) : pstate :=
  fold_left (fun ps hv => record_in (fst hv) src (snd hv) ps) l ps.
Definition observed (obs : nat -> nat -> list V) (cbs : list (nat * nat)) : list (nat * V) :=
  flat_map (fun cb => map (pair (fst cb)) (obs (fst cb) (snd cb))) cbs.
Lemma record_values_pipes src l : forall s : mstate,
  let s' := fold_left (fun s hv => record_value (fst hv) src (snd hv) s) l s in
  ms_pipes s' = map (record_many src l) (ms_pipes s) /\ ms_kinds s' = ms_kinds s /\ ms_callbacks s' = ms_callbacks s.
Proof.
  induction l as [|[h v] l IH]; intros s s'; subst s'.
  - split; [symmetry; apply map_id|auto].
  - cbn [fold_left fst snd]. destruct (IH (record_value h src v s)) as (A & B & C). rewrite A, B, C. cbn. split; [|auto].
    rewrite map_map. reflexivity.
Qed.
Lemma run_callbacks_eq r obs (s : mstate) : run_callbacks r obs s =
  fold_left (fun s hv => record_value (fst hv) (During r) (snd hv) s) (observed obs (ms_callbacks s)) s.
Proof.
  unfold run_callbacks, observed. generalize (ms_callbacks s) as cbs. intros cbs. revert s.
  induction cbs as [|cb cbs IH]; intros s; [reflexivity|]. cbn [fold_left flat_map]. rewrite fold_left_app, IH. f_equal.
  unfold run_callback. generalize (obs (fst cb) (snd cb)) as vs. intros vs. revert s. induction vs as [|v vs IHv]; intros s; [reflexivity|].
  cbn. apply IHv.
Qed.
Lemma record_many_cfg src l : forall ps, p_cache (ps_pipe (record_many src l ps)) = p_cache (ps_pipe ps) /\
  map cfg (p_syncs (ps_pipe (record_many src l ps))) = map cfg (p_syncs (ps_pipe ps)) /\ ps_handles (record_many src l ps) = ps_handles ps.
Proof.
  induction l as [|[h v] l IH]; intros ps; [auto|]. cbn [record_many fold_left]. destruct (IH (record_in h src v ps)) as (A & B & C).
  unfold record_many in *. cbn [fst snd]. rewrite A, B, C. cbn. split; [reflexivity|]. split; [apply cfg_log_all|reflexivity].
Qed.
(** What the next event records, per pipeline. *)
Definition recorded_by (s : mstate) (e : event) : list (nat * V) :=
  match e with
  | Create _ => []
  | Measure h v => match nth_error (ms_kinds s) h with Some k => if is_obs k then [] else [(h, v)] | None => [] end
  | Collect r obs => observed obs (ms_callbacks s)
  end.
Definition source_of (e : event) : source := match e with Collect r _ => During r | _ => Direct end.
Lemma step_records s e : (forall a, e <> Create a) ->
  ms_pipes (mstep s e) = map (record_many (source_of e) (recorded_by s e)) (ms_pipes s) /\
  ms_kinds (mstep s e) = ms_kinds s /\ ms_callbacks (mstep s e) = ms_callbacks s.
Proof.
  intros He. destruct e as [a|h v|r obs]; [now specialize (He a)| |].
  - cbn. destruct (nth_error (ms_kinds s) h) as [k|]; [destruct (is_obs k)|].
    + split; [symmetry; apply map_id|auto].
    + cbn. auto.
    + split; [symmetry; apply map_id|auto].
  - cbn [mstep PipelineModel.mstep recorded_by source_of]. rewrite run_callbacks_eq. apply record_values_pipes.
Qed.

Lemma step_create a s :
  let err := existsb (fun ps => is_err (snd (inserted a ps))) (ms_pipes s) in
  ms_kinds (mstep s (Create a)) = ms_kinds s ++ [a_kind a] /\
  (valid a = false -> ms_pipes (mstep s (Create a)) = map (fun ps => mk_ps (ps_pipe ps) (ps_handles ps ++ [[]])) (ms_pipes s) /\
                      ms_callbacks (mstep s (Create a)) = ms_callbacks s) /\
  (valid a = true ->
   ms_pipes (mstep s (Create a)) =
     map (fun ps => mk_ps (fst (inserted a ps)) (ps_handles ps ++ [if err then [] else measures_of (snd (inserted a ps))])) (ms_pipes s) /\
   ms_callbacks (mstep s (Create a)) = ms_callbacks s ++
     if is_obs (a_kind a) && existsb (fun ps => negb (List.length (if err then [] else measures_of (snd (inserted a ps))) =? 0)) (ms_pipes s)
     then map (pair (List.length (ms_kinds s))) (seq 0 (a_callbacks a)) else []).
Proof.
  intros err. cbn [mstep PipelineModel.mstep]. unfold create. change (create_ok (a_kind a) (a_name a) (a_unit a) (a_bounds a)) with (valid a).
  assert (He : forall (f : pipe * result (list nat) -> bool) l, existsb f (map (inserted a) l) = existsb (fun ps => f (inserted a ps)) l).
  { intros f l. induction l as [|x l IH]; [reflexivity|]. cbn. now rewrite IH. }
  destruct (valid a); (split; [reflexivity|]); (split; [try discriminate; auto|]); [|discriminate].
  intros _. fold (inserted a). change (fun ps : pstate => inserter_instrument sc_dec views (the_inst a) (a_num a) (a_kind a) (the_bounds a) (a_limit a) (ps_pipe ps)) with (inserted a).
  cbn [ms_pipes ms_callbacks]. rewrite He. fold err. split.
  - rewrite combine_map, map_map. apply map_ext. intros ps. reflexivity.
  - f_equal. rewrite He. reflexivity.
Qed.

Lemma inv0 n es : Forall (PS0 es) (ms_pipes (mrun sc_dec views n es)).
Proof.
  induction es as [|e es IH] using rev_ind.
  - cbn. apply Forall_forall. intros ps H. apply repeat_spec in H. subst ps. split; [split; [|split]; cbn; intros; destruct i || idtac; discriminate|].
    split; [|reflexivity]. intros k. split; [intros [r H]; discriminate|intros (a & s & [] & _)].
  - unfold mrun. rewrite fold_left_app. cbn [fold_left]. fold (mrun sc_dec views n es). set (s := mrun sc_dec views n es) in *. clearbody s.
    assert (Hcase : (exists a, e = Create a) \/ forall a, e <> Create a) by (destruct e; [left; eauto|right; discriminate..]).
    rewrite Forall_forall in *. intros ps' Hps. destruct Hcase as [[a ->]|Hne].
    + destruct (step_create a s) as (_ & Hbad & Hgood). destruct (valid a) eqn:Ev.
      * destruct (Hgood eq_refl) as [E _]. rewrite E in Hps. apply in_map_iff in Hps. destruct Hps as (ps & <- & Hps). specialize (IH ps Hps).
        destruct (inserted a ps) as [p' r] eqn:Ei. destruct (inserter_spec a _ _ _ Ei (proj1 IH)) as [-> _]. apply PS0_ask; assumption.
      * destruct (Hbad eq_refl) as [E _]. rewrite E in Hps. apply in_map_iff in Hps. destruct Hps as (ps & <- & Hps). specialize (IH ps Hps).
        eapply PS0_same; [exact IH| |reflexivity|reflexivity]. cbn. rewrite Ev. reflexivity.
    + destruct (step_records s e Hne) as [E _]. rewrite E in Hps. apply in_map_iff in Hps. destruct Hps as (ps & <- & Hps). specialize (IH ps Hps).
      destruct (record_many_cfg (source_of e) (recorded_by s e) ps) as (A & B & _).
      eapply PS0_same; [exact IH| |congruence|congruence]. destruct e; [now specialize (Hne a)|reflexivity..].
Qed.

(** The part about measurements. *)
Definition PS1 (es : list event) (ps : pstate) : Prop :=
  List.length (ps_handles ps) = List.length (creations es) /\
  (forall h a, nth_error (creations es) h = Some a -> NoDup (nth h (ps_handles ps) []) /\
     forall i, In i (nth h (ps_handles ps) []) <-> live a = true /\ exists s, nth_error (p_syncs (ps_pipe ps)) i = Some s /\ feeds a (s_key s) = true) /\
  (forall i s, nth_error (p_syncs (ps_pipe ps)) i = Some s -> s_log s = expected [] (s_key s) es).
Definition registered (cr : list args) (pipes : list pstate) : list (nat * nat) :=
  flat_map (fun h => match nth_error cr h with
                     | Some a => if is_obs (a_kind a) && existsb (fun ps => negb (List.length (nth h (ps_handles ps) []) =? 0)) pipes
                                 then map (pair h) (seq 0 (a_callbacks a)) else []
                     | None => []
                     end) (seq 0 (List.length cr)).

Lemma log_record_many src l : forall ps, (forall h, NoDup (nth h (ps_handles ps) [])) -> forall i,
  option_map (fun s => s_log s) (nth_error (p_syncs (ps_pipe (record_many src l ps))) i) =
  option_map (fun s => s_log s ++ flat_map (fun hv => if in_dec Nat.eq_dec i (nth (fst hv) (ps_handles ps) []) then [(src, snd hv)] else []) l)
    (nth_error (p_syncs (ps_pipe ps)) i).
Proof.
  induction l as [|[h v] l IH]; intros ps Hnd i.
  - cbn. destruct (nth_error _ i); cbn; [now rewrite app_nil_r|reflexivity].
  - unfold record_many. cbn [fold_left fst snd flat_map]. fold (record_many src l (record_in h src v ps)). rewrite IH by exact Hnd.
    cbn [record_in ps_pipe ps_handles p_syncs]. rewrite (nth_log_all _ _ _ (Hnd h)).
    destruct (in_dec Nat.eq_dec i (nth h (ps_handles ps) [])); destruct (nth_error (p_syncs (ps_pipe ps)) i) as [s|]; cbn; try reflexivity.
    now rewrite <- app_assoc.
Qed.

Lemma flat_map_map {X Y Z} (f : X -> Y) (g : Y -> list Z) l : flat_map g (map f l) = flat_map (fun x => g (f x)) l.
Proof. induction l; cbn; congruence. Qed.
Lemma flat_map_flat_map {X Y Z} (f : X -> list Y) (g : Y -> list Z) l : flat_map g (flat_map f l) = flat_map (fun x => flat_map g (f x)) l.
Proof. induction l; cbn; [reflexivity|]. now rewrite flat_map_app, IHl. Qed.
Lemma flat_map_ext_in {X Y} (f g : X -> list Y) l : (forall x, In x l -> f x = g x) -> flat_map f l = flat_map g l.
Proof. induction l as [|x l IH]; intros H; [reflexivity|]. cbn. rewrite (H x), IH; [reflexivity| |left; reflexivity]. intros y Hy. apply H. right. exact Hy. Qed.
Lemma flat_map_single {X Y} (f : X -> Y) l : flat_map (fun x => [f x]) l = map f l.
Proof. induction l; cbn; congruence. Qed.
Lemma flat_map_nil {X Y} (l : list X) : flat_map (fun _ => @nil Y) l = [].
Proof. induction l; cbn; congruence. Qed.

Lemma received_eq es pipes s ps i sy e : (forall a, e <> Create a) ->
  ms_kinds s = map a_kind (creations es) -> ms_callbacks s = registered (creations es) pipes -> In ps pipes -> PS1 es ps ->
  nth_error (p_syncs (ps_pipe ps)) i = Some sy ->
  flat_map (fun hv => if in_dec Nat.eq_dec i (nth (fst hv) (ps_handles ps) []) then [(source_of e, snd hv)] else []) (recorded_by s e)
  = received (creations es) (s_key sy) e.
Proof.
  intros Hne Hk Hc Hin (L & Hh & _) Hi.
  assert (Hmem : forall h a, nth_error (creations es) h = Some a ->
     (live a && feeds a (s_key sy) = true <-> In i (nth h (ps_handles ps) []))).
  { intros h a E. rewrite (proj2 (Hh h a E)), andb_true_iff. split.
    - intros [A B]. split; [exact A|]. exists sy. auto.
    - intros [A (sy' & B & C)]. rewrite Hi in B. injection B as <-. auto. }
  destruct e as [a|h v|r obs]; [now specialize (Hne a)| |]; cbn [recorded_by source_of received].
  - rewrite Hk, nth_error_map. destruct (nth_error (creations es) h) as [a|] eqn:E; cbn [option_map]; [|reflexivity].
    specialize (Hmem h a E). change (by_callback (a_kind a)) with (is_obs (a_kind a)). destruct (is_obs (a_kind a)); [reflexivity|]. cbn [flat_map fst snd negb andb].
    destruct (in_dec Nat.eq_dec i _) as [A|A]; destruct (live a && feeds a (s_key sy)); cbn; try reflexivity; exfalso; [discriminate (proj2 Hmem A)|exact (A (proj1 Hmem eq_refl))].
  - rewrite Hc. unfold observed, registered. rewrite !flat_map_flat_map. apply flat_map_ext_in. intros h _.
    destruct (nth_error (creations es) h) as [a|] eqn:E; [|reflexivity]. specialize (Hmem h a E).
    change (by_callback (a_kind a)) with (is_obs (a_kind a)). destruct (is_obs (a_kind a)); [|reflexivity]. cbn [andb].
    destruct (live a && feeds a (s_key sy)) eqn:El.
    + assert (Hi' : In i (nth h (ps_handles ps) [])) by now apply Hmem.
      assert (Hex : existsb (fun ps => negb (List.length (nth h (ps_handles ps) []) =? 0)) pipes = true).
      { apply existsb_exists. exists ps. split; [exact Hin|]. destruct (nth h (ps_handles ps) []); [destruct Hi'|reflexivity]. }
      rewrite Hex. rewrite flat_map_map. apply flat_map_ext_in. intros j _. cbn [fst snd]. rewrite flat_map_map.
      cbn [fst snd]. destruct (in_dec Nat.eq_dec i _); [|contradiction]. apply flat_map_single.
    + assert (Hi' : ~ In i (nth h (ps_handles ps) [])) by (intros A; apply Hmem in A; congruence).
      match goal with |- context [if ?b then _ else _] => destruct b; [|reflexivity] end.
      rewrite flat_map_map. rewrite (flat_map_ext_in _ (fun _ => [])); [apply flat_map_nil|]. intros j _. cbn [fst snd].
      rewrite flat_map_map. cbn [fst snd]. destruct (in_dec Nat.eq_dec i _); [contradiction|]. apply flat_map_nil.
Qed.

Lemma live_asked es a k : In a (creations es) -> live a = true -> feeds a k = true -> asked es k.
Proof.
  intros Hin Hl Hf. unfold live in Hl. apply andb_true_iff in Hl. destruct Hl as [Hv Ho]. unfold feeds in Hf.
  apply existsb_exists in Hf. destruct Hf as (s & Hs & E). destruct (key_dec sc_dec (out_key a s) k) as [<-|]; [|discriminate].
  exists a, s. rewrite forallb_forall in Ho. split; [|auto]. unfold creations in Hin. apply in_flat_map in Hin.
  destruct Hin as (e & He & Ha). unfold requests. apply in_flat_map. exists e. split; [exact He|].
  destruct e; cbn in Ha; try tauto. destruct Ha as [<-|[]]. rewrite Hv. now apply in_map.
Qed.
Lemma creations_snoc es e : creations (es ++ [e]) = creations es ++ creates e.
Proof. unfold creations. rewrite flat_map_app. cbn. now rewrite app_nil_r. Qed.

Lemma PS1_create es a ps e : PS0 es ps -> PS1 es ps -> coherent a -> valid a = true ->
  e = negb (forallb (stream_ok a) (streams a)) ->
  PS1 (es ++ [Create a]) (mk_ps (fst (inserted a ps)) (ps_handles ps ++ [if e then [] else measures_of (snd (inserted a ps))])).
Proof.
  intros H0 (L & Hh & Hl) Hco Hv He. pose proof (PS0_ask es a ps [] H0 Hv) as H0'. destruct H0 as (P & B & C).
  destruct (inserted a ps) as [p' r] eqn:Ei. destruct (inserter_spec a _ _ _ Ei P) as [Ep Hr]. destruct (Hr Hco) as (Her & Hnd & Hms).
  destruct H0' as (P' & B' & C'). cbn [ps_pipe] in *. rewrite <- Ep in *.
  destruct (asks_spec a (streams a) _ P) as (_ & [[l El] Hext] & _). rewrite <- Ep in El, Hext.
  assert (Hnew : forall i s, nth_error (p_syncs p') i = Some s -> nth_error (p_syncs (ps_pipe ps)) i = Some s \/ ~ asked es (s_key s)).
  { intros i s Hs. destruct (nth_error (p_syncs (ps_pipe ps)) i) as [s0|] eqn:E.
    - left. rewrite El, nth_error_app1 in Hs by (apply nth_error_Some; congruence). congruence.
    - right. intros Ha. apply B in Ha. destruct Ha as [r0 Hr0]. pose proof (Hext _ _ Hr0) as H1.
      destruct P' as (P1' & P2' & _). rewrite (P2' i s Hs) in H1. injection H1 as <-. destruct P as (P1 & _). destruct (P1 _ _ Hr0) as (s1 & A1 & _). congruence. }
  assert (Hold : forall i s, nth_error (p_syncs (ps_pipe ps)) i = Some s -> nth_error (p_syncs p') i = Some s).
  { intros i s Hs. rewrite El, nth_error_app1; [exact Hs|]. apply nth_error_Some. congruence. }
  split; [|split]; cbn [ps_handles ps_pipe fst snd].
  - rewrite creations_snoc, !app_length, L. reflexivity.
  - intros h a' Hn. rewrite creations_snoc in Hn. cbn [creates] in Hn.
    destruct (Nat.lt_ge_cases h (List.length (creations es))) as [Lt|Ge].
    + rewrite nth_error_app1 in Hn by exact Lt. rewrite app_nth1 by lia. destruct (Hh h a' Hn) as [Hnd' Hm']. split; [exact Hnd'|].
      intros i. rewrite Hm'. split; intros [A (s & S1 & S2)]; (split; [exact A|]); exists s.
      * split; [now apply Hold|exact S2].
      * split; [|exact S2]. destruct (Hnew i s S1) as [H|H]; [exact H|]. exfalso. apply H. eapply live_asked; [|exact A|exact S2].
        eapply nth_error_In. exact Hn.
    + rewrite nth_error_app2 in Hn by exact Ge. rewrite app_nth2 by lia. rewrite L.
      destruct (h - List.length (creations es)) as [|j]; [|destruct j; discriminate]. cbn in Hn. injection Hn as <-. cbn [nth].
      unfold live. rewrite Hv. cbn [andb]. destruct (forallb (stream_ok a) (streams a)) eqn:Ef; cbn in He; subst e.
      * split; [exact Hnd|]. intros i. rewrite (Hms eq_refl). split; [intros H; split; [reflexivity|exact H]|intros [_ H]; exact H].
      * split; [constructor|]. intros i. split; [intros []|intros [H _]; discriminate].
  - intros i s Hs. rewrite expected_snoc. cbn [received]. rewrite app_nil_r. destruct (nth_error (p_syncs (ps_pipe ps)) i) as [s0|] eqn:E.
    + pose proof (Hold _ _ E) as E'. rewrite Hs in E'. injection E' as <-. now apply Hl with i.
    + assert (Hnlog : forall x, In x l -> s_log x = []).
      { intros x Hx. clear - El Ep Hx P. subst p'. revert P El. generalize (ps_pipe ps) as p. intros p P. revert l Hx P. generalize (streams a) as ss.
        intros ss. revert p. induction ss as [|s0 ss IH]; intros p l Hx P El; cbn in El.
        - rewrite <- (app_nil_r (p_syncs p)) in El at 1. apply app_inv_head in El. subst l. destruct Hx.
        - destruct (ask_spec a s0 p P) as (Q & _). destruct (asks_spec a ss _ Q) as (_ & [[l2 E2] _] & _).
          assert (H1 : exists l1, p_syncs (ask a p s0) = p_syncs p ++ l1 /\ forall y, In y l1 -> s_log y = []).
          { unfold ask, cached_aggregator. destruct (compatible _ _); [|exists []; rewrite app_nil_r; split; [reflexivity|intros y []]].
            destruct (find_cache _ _); [exists []; rewrite app_nil_r; split; [reflexivity|intros y []]|].
            destruct (aggregate_fn _ _) as [[im|]|]; cbn [fst p_syncs].
            - eexists. split; [reflexivity|]. intros y [<-|[]]. reflexivity.
            - exists []. rewrite app_nil_r. split; [reflexivity|intros y []].
            - exists []. rewrite app_nil_r. split; [reflexivity|intros y []]. }
          destruct H1 as (l1 & E1 & Hl1). pose proof (IH (ask a p s0) l2) as IH2. rewrite E2, E1, <- app_assoc in El. apply app_inv_head in El. subst l.
          rewrite in_app_iff in Hx. destruct Hx as [Hx|Hx]; [now apply Hl1|]. apply IH2; [exact Hx|exact Q|exact E2]. }
      destruct (Hnew i s Hs) as [H|H]; [congruence|]. rewrite expected_nil.
      * apply Hnlog. rewrite El, nth_error_app2 in Hs by (apply nth_error_None; exact E). eapply nth_error_In. exact Hs.
      * cbn [app]. intros a' Ha'. apply not_true_iff_false. intros A. apply andb_true_iff in A. destruct A as [A1 A2]. apply H. eapply live_asked; eassumption.
Qed.

Lemma nth_handles_nodup es ps : PS1 es ps -> forall h, NoDup (nth h (ps_handles ps) []).
Proof.
  intros (L & Hh & _) h. destruct (nth_error (creations es) h) as [a|] eqn:E; [apply (Hh h a E)|].
  rewrite nth_overflow; [constructor|]. rewrite L. now apply nth_error_None.
Qed.

Lemma registered_snoc cr a pipes pipes' :
  Forall2 (fun ps ps' => List.length (ps_handles ps) = List.length cr /\ exists h, ps_handles ps' = ps_handles ps ++ [h]) pipes pipes' ->
  registered (cr ++ [a]) pipes' = registered cr pipes ++
   if is_obs (a_kind a) && existsb (fun ps => negb (List.length (nth (List.length cr) (ps_handles ps) []) =? 0)) pipes'
   then map (pair (List.length cr)) (seq 0 (a_callbacks a)) else [].
Proof.
  intros F. unfold registered. rewrite app_length. cbn [List.length]. rewrite Nat.add_1_r, seq_S, flat_map_app. cbn [flat_map plus Nat.add]. rewrite app_nil_r.
  f_equal.
  - apply flat_map_ext_in. intros h Hh. apply in_seq in Hh. rewrite nth_error_app1 by lia. destruct (nth_error cr h) as [a'|]; [|reflexivity].
    assert (E : existsb (fun ps => negb (List.length (nth h (ps_handles ps) []) =? 0)) pipes' = existsb (fun ps => negb (List.length (nth h (ps_handles ps) []) =? 0)) pipes).
    { clear - F Hh. induction F as [|x y l l' [A [h0 B]] F IH]; [reflexivity|]. cbn. rewrite IH. f_equal. rewrite B, app_nth1 by lia. reflexivity. }
    rewrite E. reflexivity.
  - rewrite nth_error_app2, Nat.sub_diag by lia. reflexivity.
Qed.

Definition G (es : list event) (s : mstate) : Prop :=
  ms_kinds s = map a_kind (creations es) /\ Forall (PS1 es) (ms_pipes s) /\ ms_callbacks s = registered (creations es) (ms_pipes s).

Lemma inv1 n es : Forall coherent (creations es) -> G es (mrun sc_dec views n es).
Proof.
  induction es as [|e es IH] using rev_ind; intros Hco.
  - split; [reflexivity|]. split; [|reflexivity]. cbn. apply Forall_forall. intros ps H. apply repeat_spec in H. subst ps.
    split; [reflexivity|]. split; [intros h a H; destruct h; discriminate|intros i s H; destruct i; discriminate].
  - rewrite creations_snoc in Hco. apply Forall_app in Hco. destruct Hco as [Hco1 Hco2]. specialize (IH Hco1).
    pose proof (inv0 n es) as H0. unfold mrun in *. rewrite fold_left_app. cbn [fold_left] in *. set (s := fold_left mstep es (m_init n)) in *. clearbody s.
    destruct IH as (Gk & Gp & Gc). rewrite Forall_forall in H0, Gp.
    assert (Hcase : (exists a, e = Create a) \/ forall a, e <> Create a) by (destruct e; [left; eauto|right; discriminate..]).
    destruct Hcase as [[a ->]|Hne].
    + cbn [creates] in Hco2. assert (Hc : coherent a) by now inversion Hco2.
      destruct (step_create a s) as (Hk & Hbad & Hgood). unfold G. rewrite Hk, Gk, creations_snoc. cbn [creates].
      split; [now rewrite map_app|]. assert (Hlen : List.length (ms_kinds s) = List.length (creations es)) by (rewrite Gk; apply map_length).
      destruct (valid a) eqn:Ev.
      * destruct (Hgood eq_refl) as [Ep Ec]. set (err := existsb (fun ps => is_err (snd (inserted a ps))) (ms_pipes s)) in *.
        assert (Herr : forall ps, In ps (ms_pipes s) -> err = negb (forallb (stream_ok a) (streams a))).
        { assert (He : forall ps, In ps (ms_pipes s) -> is_err (snd (inserted a ps)) = negb (forallb (stream_ok a) (streams a))).
          { intros ps Hps. destruct (inserted a ps) as [p' r] eqn:Ei. destruct (inserter_spec a _ _ _ Ei (proj1 (H0 ps Hps))) as [_ Hr]. now destruct (Hr Hc). }
          intros ps Hps. unfold err. destruct (negb (forallb (stream_ok a) (streams a))) eqn:Eb.
          - apply existsb_exists. exists ps. split; [exact Hps|]. now apply He.
          - apply not_true_iff_false. intros A. apply existsb_exists in A. destruct A as (ps' & A & B). rewrite (He ps' A) in B. discriminate. }
        split.
        -- rewrite Ep. apply Forall_forall. intros ps' Hps. apply in_map_iff in Hps. destruct Hps as (ps & <- & Hps).
           apply PS1_create; [auto|auto|exact Hc|exact Ev|exact (Herr ps Hps)].
        -- rewrite Ec, Gc. rewrite (registered_snoc (creations es) a (ms_pipes s) (ms_pipes (mstep s (Create a)))).
           ++ f_equal. rewrite Hlen. rewrite Ep.
              assert (E : forall l, (forall ps, In ps l -> In ps (ms_pipes s)) -> existsb (fun ps => negb (List.length (nth (List.length (creations es)) (ps_handles ps) []) =? 0))
                 (map (fun ps => mk_ps (fst (inserted a ps)) (ps_handles ps ++ [if err then [] else measures_of (snd (inserted a ps))])) l)
                 = existsb (fun ps => negb (List.length (if err then [] else measures_of (snd (inserted a ps))) =? 0)) l).
              { induction l as [|x l IHl]; intros Hin; [reflexivity|]. cbn [map existsb ps_handles]. rewrite IHl by (intros y Hy; apply Hin; right; exact Hy).
                f_equal. destruct (Gp x (Hin x (or_introl eq_refl))) as (Lx & _). rewrite app_nth2, Lx, Nat.sub_diag by lia. reflexivity. }
              rewrite E by auto. reflexivity.
           ++ rewrite Ep. clear - Gp. assert (H : forall l, (forall ps, In ps l -> PS1 es ps) -> Forall2 (fun ps ps' => List.length (ps_handles ps) = List.length (creations es) /\ exists h, ps_handles ps' = ps_handles ps ++ [h]) l
               (map (fun ps => mk_ps (fst (inserted a ps)) (ps_handles ps ++ [if err then [] else measures_of (snd (inserted a ps))])) l)).
              { induction l as [|x l IHl]; intros Hin; cbn; constructor; [split; [apply (Hin x (or_introl eq_refl))|eexists; reflexivity]|].
                apply IHl. intros y Hy. apply Hin. right. exact Hy. }
              apply H. exact Gp.
      * destruct (Hbad eq_refl) as [Ep Ec]. split.
        -- rewrite Ep. apply Forall_forall. intros ps' Hps. apply in_map_iff in Hps. destruct Hps as (ps & <- & Hps).
           destruct (Gp ps Hps) as (L & Hh & Hl). split; [|split]; cbn [ps_handles ps_pipe].
           ++ rewrite creations_snoc, !app_length, L. reflexivity.
           ++ intros h a' Hn. rewrite creations_snoc in Hn. cbn [creates] in Hn. destruct (Nat.lt_ge_cases h (List.length (creations es))) as [Lt|Ge].
              ** rewrite nth_error_app1 in Hn by exact Lt. rewrite app_nth1 by lia. exact (Hh h a' Hn).
              ** rewrite nth_error_app2 in Hn by exact Ge. rewrite app_nth2, L by lia.
                 destruct (h - List.length (creations es)) as [|j]; [|destruct j; discriminate]. cbn in Hn. injection Hn as <-. cbn [nth].
                 split; [constructor|]. intros i. unfold live. rewrite Ev. split; [intros []|intros [H _]; discriminate].
           ++ intros i sy Hs. rewrite expected_snoc. cbn [received]. rewrite app_nil_r. now apply Hl with i.
        -- rewrite Ec, Gc. rewrite (registered_snoc (creations es) a (ms_pipes s) (ms_pipes (mstep s (Create a)))).
           ++ rewrite Ep. assert (E : existsb (fun ps => negb (List.length (nth (List.length (creations es)) (ps_handles ps) []) =? 0))
                 (map (fun ps => mk_ps (ps_pipe ps) (ps_handles ps ++ [[]])) (ms_pipes s)) = false).
              { assert (E : forall l, (forall ps, In ps l -> PS1 es ps) -> existsb (fun ps => negb (List.length (nth (List.length (creations es)) (ps_handles ps) []) =? 0))
                   (map (fun ps => mk_ps (ps_pipe ps) (ps_handles ps ++ [[]])) l) = false).
                { induction l as [|x l IHl]; intros Hin; [reflexivity|]. cbn [map existsb ps_handles]. rewrite IHl by (intros y Hy; apply Hin; right; exact Hy).
                  destruct (Hin x (or_introl eq_refl)) as (Lx & _). rewrite app_nth2, Lx, Nat.sub_diag by lia. reflexivity. }
                apply E. exact Gp. }
              rewrite E, andb_false_r, app_nil_r. reflexivity.
           ++ rewrite Ep. clear - Gp. assert (H : forall l, (forall ps, In ps l -> PS1 es ps) -> Forall2 (fun ps ps' => List.length (ps_handles ps) = List.length (creations es) /\ exists h, ps_handles ps' = ps_handles ps ++ [h]) l
               (map (fun ps => mk_ps (ps_pipe ps) (ps_handles ps ++ [[]])) l)).
              { induction l as [|x l IHl]; intros Hin; cbn; constructor; [split; [apply (Hin x (or_introl eq_refl))|eexists; reflexivity]|].
                apply IHl. intros y Hy. apply Hin. right. exact Hy. }
              apply H. exact Gp.
    + destruct (step_records s e Hne) as (Ep & Ek & Ec). assert (Hcr : creations (es ++ [e]) = creations es).
      { rewrite creations_snoc. destruct e; [now specialize (Hne a)|apply app_nil_r..]. }
      unfold G. rewrite Hcr, Ek, Ec. split; [exact Gk|]. split.
      * rewrite Ep. apply Forall_forall. intros ps' Hps. apply in_map_iff in Hps. destruct Hps as (ps & <- & Hps).
        pose proof (Gp ps Hps) as HP. destruct (record_many_cfg (source_of e) (recorded_by s e) ps) as (A & B & C).
        unfold PS1. rewrite Hcr, C. destruct HP as (L & Hh & Hl) eqn:EHP. split; [exact L|]. split.
        -- intros h a Hn. destruct (Hh h a Hn) as [Hnd Hm]. split; [exact Hnd|]. intros i. rewrite Hm. split; intros [X (sy & S1 & S2)]; (split; [exact X|]).
           ++ symmetry in B. destruct (key_cfg _ _ _ _ B S1) as (sy' & T1 & T2). exists sy'. split; [exact T1|congruence].
           ++ destruct (key_cfg _ _ _ _ B S1) as (sy' & T1 & T2). exists sy'. split; [exact T1|congruence].
        -- intros i sy Hs. destruct (key_cfg _ _ _ _ B Hs) as (sy0 & T1 & T2).
           pose proof (log_record_many (source_of e) (recorded_by s e) ps (nth_handles_nodup es ps (conj L (conj Hh Hl))) i) as Hlog.
           rewrite Hs, T1 in Hlog. cbn in Hlog. injection Hlog as Hlog. rewrite Hlog, expected_snoc. f_equal; [rewrite (Hl i sy0 T1); congruence|].
           cbn [app]. rewrite <- T2. eapply received_eq; eauto.
      * rewrite Gc, Ep. unfold registered. apply flat_map_ext_in. intros h _. destruct (nth_error (creations es) h) as [a|]; [|reflexivity].
        assert (E : existsb (fun ps => negb (List.length (nth h (ps_handles ps) []) =? 0)) (map (record_many (source_of e) (recorded_by s e)) (ms_pipes s))
           = existsb (fun ps => negb (List.length (nth h (ps_handles ps) []) =? 0)) (ms_pipes s)).
        { clear. induction (ms_pipes s) as [|x l IHl]; [reflexivity|]. cbn [map existsb]. rewrite IHl. f_equal.
          destruct (record_many_cfg (source_of e) (recorded_by s e) x) as (_ & _ & C). now rewrite C. }
        rewrite E. reflexivity.
Qed.
Lemma pipes_length n (es : list event) : List.length (ms_pipes (mrun sc_dec views n es)) = n.
Proof.
  induction es as [|e es IH] using rev_ind; [apply repeat_length|]. unfold mrun. rewrite fold_left_app. cbn [fold_left]. fold (mrun sc_dec views n es).
  set (s := mrun sc_dec views n es) in *. clearbody s.
  assert (Hcase : (exists a, e = Create a) \/ forall a, e <> Create a) by (destruct e; [left; eauto|right; discriminate..]).
  destruct Hcase as [[a ->]|Hne].
  - destruct (step_create a s) as (_ & Hbad & Hgood). destruct (valid a); [destruct (Hgood eq_refl) as [E _]|destruct (Hbad eq_refl) as [E _]];
    rewrite E, map_length; exact IH.
  - destruct (step_records s e Hne) as (E & _). rewrite E, map_length. exact IH.
Qed.
Lemma first_requests_keys rs : forall d, NoDup (map c_key (first_requests d rs)) /\ forall c, In c (first_requests d rs) -> ~ In (c_key c) d.
Proof.
  induction rs as [|[a s] rs IH]; intros d; cbn [first_requests]; [split; [constructor|intros c []]|].
  destruct (stream_ok a s); [|apply IH]. destruct (in_dec _ _ d) as [Hi|Hi]; [apply IH|].
  destruct (IH (out_key a s :: d)) as [A B]. unfold config_of. destruct (aggregate_fn _ _) as [[i|]|]; cbn [app map].
  - split.
    + constructor; [|exact A]. intros H. apply in_map_iff in H. destruct H as (c & E & Hc). apply (B c Hc). left. symmetry. exact E.
    + intros c [<-|Hc]; [exact Hi|]. intros H. apply (B c Hc). right. exact H.
  - split; [exact A|]. intros c Hc H. apply (B c Hc). right. exact H.
  - split; [exact A|]. intros c Hc H. apply (B c Hc). right. exact H.
Qed.
End spec.

(** ** C53 *)

(** Every reader has exactly one output stream per identity asked for, configured
    by the first request (none if that was for Drop), in order; whatever the views. *)
Theorem C53_one_stream_per_identity : forall KV V sc_dec views n (es : list (@event KV V)),
  List.length (ms_pipes (mrun sc_dec views n es)) = n /\
  forall ps, In ps (ms_pipes (mrun sc_dec views n es)) ->
  map cfg (p_syncs (ps_pipe ps)) = first_requests sc_dec [] (requests views es) /\
  NoDup (map s_key (p_syncs (ps_pipe ps))).
Proof.
  intros. split; [apply pipes_length|]. intros ps Hps. pose proof (inv0 sc_dec views n es) as H. rewrite Forall_forall in H.
  destruct (H ps Hps) as (_ & _ & C). split; [exact C|].
  assert (E : map s_key (p_syncs (ps_pipe ps)) = map c_key (map cfg (p_syncs (ps_pipe ps)))) by (rewrite map_map; reflexivity).
  rewrite E, C. apply first_requests_keys.
Qed.
Print Assumptions C53_one_stream_per_identity.

(** If no two streams of one instrument differ only in the case of their names (nor
    agree in identity but not in compatibility), every stream of every reader has
    received each measurement through an instrument feeding it exactly once, in
    order, and nothing else - however often and in whatever order the instruments
    were created. *)
Theorem C53_counted_once : forall KV V sc_dec views n (es : list (@event KV V)),
  Forall (coherent views) (creations es) ->
  forall ps s, In ps (ms_pipes (mrun sc_dec views n es)) -> In s (p_syncs (ps_pipe ps)) ->
  s_log s = expected sc_dec views [] (s_key s) es.
Proof.
  intros KV V sc_dec views n es Hco ps s Hps Hs. destruct (inv1 sc_dec views n es Hco) as (_ & H & _). rewrite Forall_forall in H.
  destruct (H ps Hps) as (_ & _ & Hl). apply In_nth_error in Hs. destruct Hs as [i Hi]. now apply Hl with i.
Qed.
Print Assumptions C53_counted_once.

Definition exs : scope unit := mk_scope _ (of_string "lib") None None [].
Definition unit_scope_dec : forall x y : scope unit, {x = y} + {x <> y}.
Proof.
  assert (S : forall x y : str, {x = y} + {x <> y}) by (apply list_eq_dec; apply N.eq_dec).
  assert (O : forall x y : option str, {x = y} + {x <> y}) by (decide equality).
  assert (U : forall x y : list unit, {x = y} + {x <> y}) by (apply list_eq_dec; decide equality).
  decide equality.
Defined.
Definition ex_args (n : string) : @args unit := mk_args exs U64 KCounter (of_string n) None None None None 0.
Definition rename (to : string) (i : instrument unit) : option stream :=
  Some (mk_stream (of_string to) (i_desc i) (i_unit i) None None None).
(** Without the condition it fails: two views renaming to "Total" and "total" make
    every measurement count twice. *)
Theorem C114_counted_once_refuted : ~ (forall sc_dec views n (es : list (@event unit nat)),
  forall ps s, In ps (ms_pipes (mrun sc_dec views n es)) -> In s (p_syncs (ps_pipe ps)) ->
  s_log s = expected sc_dec views [] (s_key s) es).
Proof.
  intros H. specialize (H unit_scope_dec [rename "Total"; rename "total"] 1 [Create (ex_args "a"); Measure 0 5]).
  destruct (mrun unit_scope_dec [rename "Total"; rename "total"] 1 [Create (ex_args "a"); Measure 0 5]) as [pipes ks cbs] eqn:E.
  vm_compute in E. injection E as <- _ _. specialize (H _ _ (or_introl eq_refl) (or_introl eq_refl)). vm_compute in H. discriminate.
Qed.
Print Assumptions C114_counted_once_refuted.

Example C53_nonvacuous :
  let views := [rename "x"; rename "y"; rename "x"] in
  let es := [Create (ex_args "a"); Measure 0 5; Create (ex_args "A"); Measure 1 7; Create (ex_args "a"); Measure 2 9] in
  Forall (coherent views) (creations es) /\
  map (fun ps => map s_log (p_syncs (ps_pipe ps))) (ms_pipes (mrun unit_scope_dec views 2 es)) =
  let l := [(Direct, 5); (Direct, 7); (Direct, 9)] in [[l; l]; [l; l]].
Proof.
  split; [|vm_compute; reflexivity]. unfold creations. cbn [flat_map creates app].
  assert (H : forall n, coherent [rename "x"; rename "y"; rename "x"] (ex_args n)).
  { intros n s1 s2 H1 H2 E. unfold streams in H1, H2. cbn in H1, H2. destruct H1 as [<-|[<-|[<-|[]]]], H2 as [<-|[<-|[<-|[]]]];
    (split; [|reflexivity]); first [reflexivity | vm_compute in E; discriminate]. }
  repeat (apply Forall_cons; [apply H|]). apply Forall_nil.
Qed.

(** ** C54: what an invalid instrument does *)
Theorem C54_invalid_records_nothing : forall KV V sc_dec views (s : @mstate KV V) a,
  create_ok (a_kind a) (a_name a) (a_unit a) (a_bounds a) = false ->
  (forall ps, In ps (ms_pipes s) -> List.length (ps_handles ps) = List.length (ms_kinds s)) ->
  let s' := mstep sc_dec views s (Create a) in
  map ps_pipe (ms_pipes s') = map ps_pipe (ms_pipes s) /\ ms_callbacks s' = ms_callbacks s /\
  forall v, map ps_pipe (ms_pipes (mstep sc_dec views s' (Measure (List.length (ms_kinds s)) v))) = map ps_pipe (ms_pipes s).
Proof.
  intros KV V sc_dec views s a Hbad Hlen s'. destruct (step_create sc_dec views a s) as (Hk & Hb & _).
  destruct (Hb Hbad) as [Ep Ec]. fold s' in Hk, Ep, Ec. split; [rewrite Ep, map_map; reflexivity|]. split; [exact Ec|]. intros v.
  destruct (step_records sc_dec views s' (Measure (List.length (ms_kinds s)) v) ltac:(discriminate)) as (E & _). rewrite E, Ep, !map_map.
  apply map_ext_in. intros ps Hps. cbn [recorded_by source_of]. rewrite Hk, nth_error_app2, Nat.sub_diag by lia. cbn [nth_error].
  destruct (is_obs (a_kind a)); [reflexivity|]. unfold record_many. cbn [fold_left fst snd record_in ps_pipe ps_handles].
  specialize (Hlen ps Hps). rewrite app_nth2, Hlen, Nat.sub_diag by lia. cbn. destruct (ps_pipe ps). reflexivity.
Qed.
Print Assumptions C54_invalid_records_nothing.
Example C54_records_nonvacuous :
  let s := mrun (V := nat) unit_scope_dec [] 2 [Create (ex_args "ok"); Measure 0 3] in
  create_ok KCounter (of_string "1bad") None None = false /\
  forallb (fun ps => (List.length (ps_handles ps) =? List.length (ms_kinds s))%nat) (ms_pipes s) = true.
Proof. vm_compute. auto. Qed.

(** ** C73: aggregations *)

(** The aggregator an instrument of each kind gets from each kind of request. *)
Inductive chosen : kind -> option agg -> option impl -> Prop :=
| Ch_drop k : chosen k (Some ADrop) None
| Ch_counter a : a = None \/ a = Some ADefault \/ a = Some ASum -> chosen KCounter a (Some (ISum true))
| Ch_updown a : a = None \/ a = Some ADefault \/ a = Some ASum -> chosen KUpDown a (Some (ISum false))
| Ch_obscounter a : a = None \/ a = Some ADefault \/ a = Some ASum -> chosen KObsCounter a (Some (IPre true))
| Ch_obsupdown a : a = None \/ a = Some ADefault \/ a = Some ASum -> chosen KObsUpDown a (Some (IPre false))
| Ch_gauge a : a = None \/ a = Some ADefault \/ a = Some ALastValue -> chosen KGauge a (Some (ILast false))
| Ch_obsgauge a : a = None \/ a = Some ADefault \/ a = Some ALastValue -> chosen KObsGauge a (Some (ILast true))
| Ch_hist a : a = None \/ a = Some ADefault ->
    chosen KHistogram a (Some (IHist (map f64_of_Z [0; 5; 10; 25; 50; 75; 100; 250; 500; 750; 1000; 2500; 5000; 7500; 10000]%Z) true true))
| Ch_histsum : chosen KHistogram (Some ASum) (Some (ISum true))
| Ch_explicit k b mm : chosen k (Some (AExplicit b mm)) (Some (IHist b mm (match k with KUpDown | KObsUpDown | KObsGauge => false | _ => true end)))
| Ch_expo k n sc mm : chosen k (Some (AExpo n sc mm)) (Some (IExpo n sc mm (match k with KUpDown | KObsUpDown | KObsGauge => false | _ => true end))).
(** A request is accepted exactly if the table has an entry, which is then built;
    an accepted request never fails later. *)
Theorem C73_aggregation_table : forall k a i,
  chosen k a i <-> compatible k (effective k a) = true /\ aggregate_fn (effective k a) k = Ok i.
Proof.
  intros k a i. split.
  - intros H. inversion H; subst; try (repeat match goal with H : _ \/ _ |- _ => destruct H as [H|H] end; subst); try (split; reflexivity).
    all: destruct k; split; reflexivity.
  - intros [H1 H2]. destruct a as [[]|], k; cbn in H1, H2; try discriminate; injection H2 as <-; constructor; auto.
Qed.
Print Assumptions C73_aggregation_table.
(** An instrument whose configuration asks for an aggregation it cannot have
    records nothing, not even into the streams that could be built. *)
Theorem C73_incompatible_records_nothing : forall KV V sc_dec views (n : nat) (es : list (@event KV V)) a v,
  Forall (coherent views) (creations es) -> coherent views a ->
  (exists s, In s (streams views a) /\ ~ exists i, chosen (a_kind a) (st_agg s) i) ->
  forall ps s, In ps (ms_pipes (mrun sc_dec views n (es ++ [Create a; Measure (List.length (creations es)) v]))) -> In s (p_syncs (ps_pipe ps)) ->
  s_log s = expected sc_dec views [] (s_key s) es.
Proof.
  intros KV V sc_dec views n es a v Hco Hca (st & Hst & Hno) ps s Hps Hs.
  assert (E : es ++ [Create a; Measure (List.length (creations es)) v] = (es ++ [Create a]) ++ [Measure (List.length (creations es)) v]) by (rewrite <- app_assoc; reflexivity).
  rewrite E in Hps. assert (Hco' : Forall (coherent views) (creations ((es ++ [Create a]) ++ [Measure (List.length (creations es)) v]))).
  { rewrite !creations_snoc. cbn [creates]. rewrite app_nil_r. apply Forall_app. split; [exact Hco|]. constructor; [exact Hca|constructor]. }
  rewrite (C53_counted_once _ _ _ _ _ _ Hco' ps s Hps Hs), !expected_snoc. cbn [app received]. rewrite app_nil_r, creations_snoc.
  rewrite nth_error_app2, Nat.sub_diag by lia. cbn [creates nth_error].
  assert (Hl : live views a = false).
  { apply not_true_iff_false. intros H. unfold live in H. apply andb_true_iff in H. destruct H as [_ H]. rewrite forallb_forall in H.
    specialize (H st Hst). apply Hno. unfold stream_ok in H. destruct (aggregate_fn (effective (a_kind a) (st_agg st)) (a_kind a)) as [i|] eqn:Ea.
    - exists i. apply C73_aggregation_table. auto.
    - exfalso. exact (aggregate_ok _ _ H Ea). }
  rewrite Hl, andb_false_r. cbn. apply app_nil_r.
Qed.
Print Assumptions C73_incompatible_records_nothing.
Example C73_nonvacuous : chosen KCounter None (Some (ISum true)) /\ (~ exists i, chosen KCounter (Some ALastValue) i) /\
  chosen KObsGauge (Some (AExpo 160 20 true)) (Some (IExpo 160 20 true false)).
Proof.
  split; [constructor; auto|]. split; [|apply (Ch_expo KObsGauge)]. intros [i H]. inversion H; subst; intuition discriminate.
Qed.

(** ** C74: observations and readers *)

(** Not so: an observation a callback makes while one reader collects also enters
    the streams of all the other readers. *)
Theorem C125_observations_stay_with_reader_refuted : ~ (forall sc_dec views n (es : list (@event unit nat)) r ps s src v,
  nth_error (ms_pipes (mrun sc_dec views n es)) r = Some ps -> In s (p_syncs (ps_pipe ps)) -> In (src, v) (s_log s) ->
  src = Direct \/ src = During r).
Proof.
  intros H.
  specialize (H unit_scope_dec [] 2 [Create (mk_args exs U64 KObsCounter (of_string "a") None None None None 1); Collect 0 (fun _ _ => [5])] 1).
  destruct (mrun unit_scope_dec [] 2 [Create (mk_args exs U64 KObsCounter (of_string "a") None None None None 1); Collect 0 (fun _ _ => [5])]) as [pipes ks cbs] eqn:E.
  vm_compute in E. injection E as <- _ _. specialize (H _ _ (During 0) 5 eq_refl (or_introl eq_refl) (or_introl eq_refl)). destruct H as [H|H]; discriminate.
Qed.
Print Assumptions C125_observations_stay_with_reader_refuted.

Lemma expected_during {KV V} sc_dec views k (es : list (@event KV V)) : forall c r v, In (During r, v) (expected sc_dec views c k es) ->
  exists obs, In (Collect r obs) es.
Proof.
  induction es as [|e es IH]; intros c r v H; [destruct H|]. cbn [expected] in H. apply in_app_iff in H. destruct H as [H|H].
  - destruct e as [a|h v'|r' obs]; cbn [received] in H; [destruct H| |].
    + destruct (nth_error c h); [|destruct H]. destruct (_ && _); [|destruct H]. destruct H as [H|[]]. discriminate.
    + exists obs. left. f_equal. apply in_flat_map in H. destruct H as (h & _ & H). destruct (nth_error c h); [|destruct H].
      destruct (_ && _); [|destruct H]. apply in_flat_map in H. destruct H as (j & _ & H). apply in_map_iff in H. destruct H as (x & E & _). congruence.
  - destruct (IH _ _ _ H) as [obs Ho]. exists obs. right. exact Ho.
Qed.
(** What holds: with a single reader, whose collections are the only ones,
    observations come from its own collections. *)
Theorem C74_single_reader : forall KV V sc_dec views (es : list (@event KV V)), Forall (coherent views) (creations es) ->
  (forall r obs, In (Collect r obs) es -> r < 1) ->
  forall r ps s src v, nth_error (ms_pipes (mrun sc_dec views 1 es)) r = Some ps -> In s (p_syncs (ps_pipe ps)) -> In (src, v) (s_log s) ->
  src = Direct \/ src = During r.
Proof.
  intros KV V sc_dec views es Hco Hr r ps s src v Hps Hs Hv.
  assert (Hr0 : r < 1) by (rewrite <- (pipes_length sc_dec views 1 es); apply nth_error_Some; congruence).
  rewrite (C53_counted_once _ _ _ _ _ _ Hco ps s (nth_error_In _ _ Hps) Hs) in Hv. destruct src as [|r']; [auto|]. right. f_equal.
  destruct (expected_during _ _ _ _ _ _ _ Hv) as [obs Ho]. specialize (Hr _ _ Ho). lia.
Qed.
Print Assumptions C74_single_reader.
Example C74_nonvacuous :
  map (fun ps => map s_log (p_syncs (ps_pipe ps))) (ms_pipes (mrun unit_scope_dec [] 1
    [Create (mk_args exs U64 KObsCounter (of_string "a") None None None None 1); Collect 0 (fun _ _ => [5])])) = [[[(During 0, 5)]]].
Proof. vm_compute. reflexivity. Qed.
