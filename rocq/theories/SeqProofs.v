(** The sequential store is a run of the concurrent one, and what its data points say. *)
From Coq Require Import List Arith Bool Lia Permutation.
From Verif Require Import ProviderModel ProviderProps AttrModel AttrProofs ValueMapModel ValueMapProofs ValueMapProps SeqModel SeqSpec.
Import ListNotations.

Section seq.
Context {KV A V : Type}.
Notation attrs := (list KV).
Context (keq : forall x y : attrs, {x = y} + {x <> y}) (canon : attrs -> attrs) (overflow : attrs) (keep : option (KV -> bool)).
Context (create : A) (update : A -> V -> A) (limit : nat) (delta : bool) (ord : tmap (KV := KV) -> list nat).
Context (Hord : forall m, pick (ord m) m <> None).
Notation vstep := (vstep keq canon overflow keep create update limit delta).
Notation vrun := (vrun keq canon overflow keep create update limit delta).
Notation vstate := (vstate (KV := KV) (A := A) (V := V)).
Notation measure_now := (measure_now keq canon overflow keep create update limit).
Notation points_now := (points_now (A := A) ord).
Notation reset_now := (reset_now create ord).

Definition quiet (s : vstate) : Prop := v_pc s = CIdle /\ forall i c, nth_error (v_calls s) i = Some c -> c_pc c = MDone.

Lemma vrun_app s a b : vrun s (a ++ b) = match vrun s a with Some s' => vrun s' b | None => None end.
Proof. revert s. induction a as [|x a IH]; intros s; cbn; [reflexivity|]. destruct (vstep s x); auto. Qed.

Lemma quiet_snoc (l : list (mcall (KV := KV) (V := V))) c i x : (forall i c, nth_error l i = Some c -> c_pc c = MDone) -> c_pc c = MDone ->
  nth_error (l ++ [c]) i = Some x -> c_pc x = MDone.
Proof.
  intros H Hc Hx. destruct (Nat.lt_ge_cases i (length l)) as [L|L]; [rewrite nth_error_app1 in Hx by exact L; eauto|].
  rewrite nth_error_app2 in Hx by exact L. destruct (i - length l) as [|n]; cbn in Hx; [injection Hx as <-; exact Hc|destruct n; discriminate].
Qed.
Lemma set_snoc {T} (l : list T) x y : set_nth (length l) y (l ++ [x]) = l ++ [y].
Proof. induction l as [|z l IH]; cbn; [reflexivity|]. now rewrite IH. Qed.

(** A measurement with no one else about. *)
Lemma measure_refines s k v : quiet s -> exists acts s' cls,
  vrun s acts = Some s' /\ quiet s' /\ v_map s' = measure_now k v (v_map s) /\
  v_hist s' = v_hist s ++ [mk_ap (length (v_calls s)) (filtered keep k) cls v] /\
  v_outs s' = v_outs s /\ v_cutno s' = v_cutno s /\ v_cutmap s' = v_cutmap s.
Proof.
  intros [Hp Hc]. unfold SeqModel.measure_now. set (fk := filtered keep k).
  destruct fk as [|x fk'] eqn:Ef.
  - eexists [Measure k v; MStep (length (v_calls s)); MStep (length (v_calls s))], _, []. split.
    + cbn [ValueMapModel.vrun ValueMapModel.vstep]. fold fk. rewrite Ef. unfold mstep at 1. cbn [v_calls].  rewrite nth_snoc_new. cbn [c_pc].
      unfold mstep. cbn [v_calls set_call apply]. rewrite set_snoc, nth_snoc_new. cbn [goto c_pc c_attrs c_val]. reflexivity.
    + cbn. rewrite ?set_snoc. cbn. repeat split; auto. cbn. intros i c Hi.  rewrite ?set_snoc in Hi. eapply quiet_snoc; [exact Hc| |exact Hi]. reflexivity.
  - rewrite <- Ef. destruct (find keq canon fk (v_map s)) as [id|] eqn:Efd.
    + eexists [Measure k v; MStep (length (v_calls s))], _, (canon fk). split.
      * cbn [ValueMapModel.vrun ValueMapModel.vstep]. fold fk. rewrite Ef. unfold mstep. cbn [v_calls].  rewrite nth_snoc_new. cbn [c_pc c_attrs v_map].
        rewrite <- Ef, Efd. reflexivity.
      * cbn. rewrite ?set_snoc. repeat split; auto. cbn. intros i c Hi. rewrite ?set_snoc in Hi. eapply quiet_snoc; [exact Hc| |exact Hi]. reflexivity.
    + destruct (write keq canon overflow create update limit fk v (v_map s)) as [m' cls] eqn:Ew.
      eexists [Measure k v; MStep (length (v_calls s)); MStep (length (v_calls s))], _, cls. split.
      * cbn [ValueMapModel.vrun ValueMapModel.vstep]. fold fk. rewrite Ef. unfold mstep at 1. cbn [v_calls].  rewrite nth_snoc_new. cbn [c_pc c_attrs v_map].
        rewrite <- Ef, Efd. unfold mstep. cbn [v_calls set_call]. rewrite set_snoc, nth_snoc_new. cbn [goto c_pc c_attrs c_val v_map locked v_pc].
        unfold locked. rewrite Hp. cbn [set_call v_pc v_map]. rewrite Ew. reflexivity.
      * cbn. rewrite ?set_snoc. cbn. rewrite ?set_snoc. repeat split; auto. cbn. intros i c Hi. rewrite ?set_snoc in Hi. eapply quiet_snoc; [exact Hc| |exact Hi]. reflexivity.
Qed.

(** A collection with no one else about. *)
Definition stage (s : vstate) (pts : list (attrs * A)) (f u : nat) : list point := map (fun p => mk_pt (fst p) (snd p) f u) pts.
Lemma tracker_points_now s es : flat_map (tracker_point s) es =
  stage s (flat_map (fun e => match nth_error (heap (v_map s)) (snd e) with Some a => [(fst e, a)] | None => [] end) es) (v_cutmap s) (now s).
Proof.
  induction es as [|e es IH]; [reflexivity|]. cbn [flat_map]. unfold stage in *. rewrite map_app, <- IH. f_equal.
  unfold tracker_point. destruct (nth_error _ _); reflexivity.
Qed.
Lemma citer_refines es : forall s, v_pc s = CIter es -> exists acts s', vrun s acts = Some s' /\
  s' = finish (v_map s) (v_dest s ++ flat_map (tracker_point s) es) (v_mapupto s) (v_cutmap s) s.
Proof.
  induction es as [|e es IH]; intros s Hp.
  - exists [CStep []]. eexists. cbn. unfold cstep. rewrite Hp. split; [reflexivity|]. rewrite app_nil_r. reflexivity.
  - set (s1 := mk_v (v_map s) (v_calls s) (CIter es) (v_dest s ++ tracker_point s e) (v_start s) (v_mapupto s) (v_nofrom s) (v_done s) (v_hist s) (v_cutno s) (v_cutmap s) (v_outs s)).
    destruct (IH s1 eq_refl) as (acts & s' & H1 & H2). exists (CStep [] :: acts), s'. split.
    + cbn [ValueMapModel.vrun ValueMapModel.vstep]. unfold cstep. rewrite Hp. exact H1.
    + rewrite H2. unfold finish, s1. cbn. rewrite <- app_assoc. reflexivity.
Qed.
Lemma done_all (l : list (mcall (KV := KV) (V := V))) : (forall i c, nth_error l i = Some c -> c_pc c = MDone) -> done_calls 0 l = seq 0 (length l).
Proof.
  generalize 0. induction l as [|c l IH]; intros k H; [reflexivity|]. cbn [done_calls length seq]. unfold is_done. rewrite (H 0 c eq_refl). cbn [app]. f_equal.
  apply IH. intros i c' Hi. exact (H (S i) c' Hi).
Qed.

Lemma collect_refines s : quiet s -> exists acts s' o,
  vrun s acts = Some s' /\ quiet s' /\ v_map s' = (if delta then snd (reset_now (v_map s)) else v_map s) /\
  v_hist s' = v_hist s /\ v_outs s' = v_outs s ++ [o] /\
  v_cutmap s' = (if delta then now s else v_cutmap s) /\ v_cutno s' = (if delta && flag (v_map s) then now s else v_cutno s) /\
  map (fun p => (p_attrs p, p_val p)) (o_pts o) = points_now (v_map s) /\
  o_start o = now s /\ o_stop o = now s /\ o_mapfrom o = v_cutmap s /\ o_mapupto o = now s /\ o_nofrom o = v_cutno s /\
  o_done o = seq 0 (length (v_calls s)).
Proof.
  intros [Hp Hc]. set (m := v_map s).
  destruct (pick (ord (trackers m)) (trackers m)) as [es|] eqn:Epk; [|exfalso; exact (Hord _ Epk)].
  (* up to the map *)
  set (m1 := if delta then mk_vm (heap m) (trackers m) (count m) false (if flag m then create else noattr m) else m).
  set (s2 := mk_v m1 (v_calls s) CMap (if flag m then [mk_pt [] (noattr m) (v_cutno s) (now s)] else [])
               (now s) (v_mapupto s) (v_cutno s) (done_calls 0 (v_calls s)) (v_hist s)
               (if delta && flag m then now s else v_cutno s) (v_cutmap s) (v_outs s)).
  assert (H2 : exists acts, vrun s acts = Some s2).
  { unfold s2, m1. destruct (flag m) eqn:Ef.
    - exists [Collect; CStep []]. cbn [ValueMapModel.vrun ValueMapModel.vstep]. rewrite Hp. fold m. rewrite Ef. unfold cstep. cbn [v_pc v_map v_dest app v_cutno].
      destruct delta; reflexivity.
    - exists [Collect]. cbn [ValueMapModel.vrun ValueMapModel.vstep]. rewrite Hp. fold m. rewrite Ef. destruct delta; reflexivity. }
  destruct H2 as [a2 H2].
  assert (Et : trackers m1 = trackers m) by (unfold m1; destruct delta; reflexivity).
  assert (Eh : heap m1 = heap m) by (unfold m1; destruct delta; reflexivity).
  assert (Epts : (if flag m then [mk_pt [] (noattr m) (v_cutno s) (now s)] else []) ++ flat_map (tracker_point s2) (dedup [] es) =
     stage s (if flag m then [([], noattr m)] else []) (v_cutno s) (now s) ++
     stage s (flat_map (fun e => match nth_error (heap m) (snd e) with Some a => [(fst e, a)] | None => [] end) (dedup [] es)) (v_cutmap s) (now s)).
  { f_equal; [destruct (flag m); reflexivity|]. rewrite tracker_points_now. cbn [v_map s2 v_cutmap]. rewrite Eh. reflexivity. }
  assert (Hpts : map (fun p => (p_attrs p, p_val p)) ((if flag m then [mk_pt [] (noattr m) (v_cutno s) (now s)] else []) ++ flat_map (tracker_point s2) (dedup [] es)) = points_now m).
  { rewrite Epts, map_app. unfold stage. rewrite !map_map. cbn [p_attrs p_val]. unfold SeqModel.points_now. rewrite Epk. f_equal.
    - destruct (flag m); reflexivity.
    - erewrite map_ext; [apply map_id|]. intros []; reflexivity. }
  assert (Ed : delta = true \/ delta = false) by (destruct delta; auto). destruct Ed as [Ed|Ed].
  - set (s3 := finish (mk_vm [] [] 0 (flag m1) (noattr m1)) (v_dest s2 ++ flat_map (tracker_point s2) (dedup [] es)) (now s2) (now s2) s2).
    exists (a2 ++ [CStep (ord (trackers m))]), s3. eexists. split.
    { rewrite vrun_app, H2. cbn [ValueMapModel.vrun ValueMapModel.vstep]. unfold cstep. cbn [v_pc s2 v_map]. rewrite Et, Epk, Ed. reflexivity. }
    split; [split; [reflexivity|exact Hc]|]. split; [unfold s3, m1; cbn; rewrite ?Ed; reflexivity|].
    split; [reflexivity|]. split; [reflexivity|]. cbn [o_pts o_start o_stop o_mapfrom o_mapupto o_nofrom o_done s3 finish v_cutmap v_cutno s2 v_dest v_start v_nofrom v_done andb].
    rewrite Ed. split; [reflexivity|]. split; [reflexivity|]. split; [exact Hpts|]. repeat split. apply done_all, Hc.
  - assert (H3 : vrun s2 [CStep (ord (trackers m))] = Some (mk_v m1 (v_calls s) (CIter (dedup [] es)) (v_dest s2) (v_start s2) (now s2) (v_nofrom s2) (v_done s2) (v_hist s) (v_cutno s2) (v_cutmap s) (v_outs s))).
    { cbn [ValueMapModel.vrun ValueMapModel.vstep]. unfold cstep. cbn [v_pc s2 v_map]. rewrite Et, Epk, Ed. reflexivity. }
    set (s3 := mk_v m1 (v_calls s) (CIter (dedup [] es)) (v_dest s2) (v_start s2) (now s2) (v_nofrom s2) (v_done s2) (v_hist s) (v_cutno s2) (v_cutmap s) (v_outs s)) in H3.
    destruct (citer_refines (dedup [] es) s3 eq_refl) as (a4 & s4 & H4 & E4).
    exists (a2 ++ [CStep (ord (trackers m))] ++ a4), s4. eexists. split.
    { rewrite vrun_app, H2, vrun_app, H3. exact H4. }
    rewrite E4. split; [split; [reflexivity|exact Hc]|]. split; [cbn; unfold m1; rewrite Ed; reflexivity|].
    split; [reflexivity|]. split; [reflexivity|]. cbn [o_pts o_start o_stop o_mapfrom o_mapupto o_nofrom o_done s3 finish v_cutmap v_cutno s2 v_dest v_start v_nofrom v_done v_mapupto].
    rewrite Ed. split; [reflexivity|]. split; [reflexivity|]. split; [exact Hpts|]. repeat split. apply done_all, Hc.
Qed.

(** * What the store stands for *)
Context (canon_idem : forall k, canon (canon k) = canon k) (canon_nil : forall k, canon k = [] <-> k = []).
Context (canon_ovf : canon overflow = overflow) (ovf_ne : overflow <> []).
Notation v_init := (v_init (KV := KV) (V := V) create).
Notation vinv := (vinv keq canon overflow create update limit delta).
Definition raw (e : applied (KV := KV) (V := V)) : attrs * V := (a_attrs e, a_val e).
Definition seen (x : attrs * V) : attrs * V := (filtered keep (fst x), snd x).
Definition srel (m : vmap (KV := KV) (A := A)) (w : list (attrs * V)) : Prop :=
  exists acts s, vrun v_init acts = Some s /\ quiet s /\ v_map s = m /\
    map raw (skipn (v_cutmap s) (v_hist s)) = map seen w /\ v_cutno s <= v_cutmap s /\
    (forall e, In e (window (v_cutno s) (v_cutmap s) (v_hist s)) -> a_class e <> []) /\
    (flag m = true -> exists e, In e (skipn (v_cutno s) (v_hist s)) /\ a_class e = []).
Lemma reach_inv acts s : vrun v_init acts = Some s -> vinv s.
Proof. intros H. eapply vinv_reach; eauto. Qed.

Lemma srel_new : srel (vm_new create) [].
Proof.
  exists [], v_init. split; [reflexivity|]. split; [split; [reflexivity|]; intros [|i] c H; discriminate H|]. cbn. repeat split; auto; discriminate.
Qed.

Lemma flag_measure k v m : flag (measure_now k v m) = match filtered keep k with [] => true | _ => flag m end.
Proof.
  unfold SeqModel.measure_now. destruct (filtered keep k) as [|x l]; [reflexivity|]. destruct (find _ _ _ _) as [id|].
  - unfold upd. destruct (nth_error _ _); reflexivity.
  - unfold write. destruct (find _ _ _ _) as [id|]; [unfold upd; destruct (nth_error _ _); reflexivity|]. destruct (_ <? _); [reflexivity|].
    destruct (lookup _ _ _) as [id|]; [unfold upd; destruct (nth_error _ _); reflexivity|reflexivity].
Qed.
Lemma skipn_skipn' {T} (l : list T) : forall n k, skipn n l = skipn n (firstn (n + k) l) ++ skipn (n + k) l.
Proof.
  intros n k. rewrite <- (firstn_skipn (n + k) l) at 1. rewrite skipn_app. f_equal.
  destruct (Nat.le_gt_cases (n + k) (length l)) as [L|L].
  - rewrite firstn_length_le by exact L. replace (n - (n + k)) with 0 by lia. reflexivity.
  - rewrite (skipn_all2 l) by lia. apply skipn_nil.
Qed.

Lemma srel_measure m w k v : srel m w -> srel (measure_now k v m) (w ++ [(k, v)]).
Proof.
  intros (acts & s & H & Q & Hm & Hw & Hc & Hno & Hf). destruct (measure_refines s k v Q) as (acts' & s' & cls & R1 & R2 & R3 & R4 & R5 & R6 & R7).
  pose proof (reach_inv _ _ H) as I. destruct (vi_cuts _ _ _ _ _ _ _ _ I) as (C1 & C2 & _). unfold now in C1, C2.
  assert (H' : vrun v_init (acts ++ acts') = Some s') by (rewrite vrun_app, H; exact R1).
  pose proof (reach_inv _ _ H') as I'.
  exists (acts ++ acts'), s'. split; [exact H'|]. split; [exact R2|]. split; [congruence|]. rewrite R4, R6, R7. split.
  { rewrite skipn_snoc by exact C2. rewrite !map_app, Hw. reflexivity. }
  split; [exact Hc|]. split; [rewrite window_grow by exact C2; exact Hno|].
  rewrite skipn_snoc by exact C1. rewrite flag_measure. destruct (filtered keep k) eqn:Ek.
  - intros _. eexists. split; [apply in_or_app; right; left; reflexivity|]. cbn.
    destruct (vi_cls _ _ _ _ _ _ _ _ I' (mk_ap (length (v_calls s)) [] cls v)) as [[_ X]|[X _]]; [rewrite R4; apply in_or_app; right; left; reflexivity|exact X|now destruct X].
  - intros Hf'. destruct (Hf Hf') as (e & He & Ee). exists e. split; [apply in_or_app; left; exact He|exact Ee].
Qed.

Lemma srel_reset m w : delta = true -> srel m w -> srel (snd (reset_now m)) [].
Proof.
  intros Ed (acts & s & H & Q & Hm & Hw & Hc & Hno & Hf). destruct (collect_refines s Q) as (acts' & s' & o & R1 & R2 & R3 & R4 & R5 & R6 & R7 & _).
  pose proof (reach_inv _ _ H) as I.
  assert (H' : vrun v_init (acts ++ acts') = Some s') by (rewrite vrun_app, H; exact R1).
  exists (acts ++ acts'), s'. split; [exact H'|]. split; [exact R2|]. split; [rewrite R3, Ed, Hm; reflexivity|]. rewrite R4, R6, R7, Ed. cbn [andb].
  destruct (vi_cuts _ _ _ _ _ _ _ _ I) as (C1 & C2 & _).
  split; [rewrite skipn_all2 by (unfold now; lia); reflexivity|]. split; [destruct (flag (v_map s)); lia|]. split; [|discriminate].
  destruct (flag (v_map s)) eqn:Ef.
  - intros e He. unfold window in He. rewrite skipn_all2 in He; [destruct He|]. rewrite firstn_length. unfold now. lia.
  - intros e He Ee. unfold now in He. rewrite window_all in He.
    destruct (vi_flag _ _ _ _ _ _ _ _ I e He Ee) as [X|[[_ X]|(c & X1 & X2)]]; [congruence|destruct Q; congruence|]. destruct Q as [_ Q]. rewrite (Q _ _ X1) in X2. discriminate.
Qed.

Lemma map_combine_split {X Y Z} (f : X -> Y) (g : Z -> Y) : forall (l : list X) (w : list Z), map f l = map g w ->
  exists b : list (X * Z), map fst b = l /\ map snd b = w /\ forall x z, In (x, z) b -> f x = g z.
Proof.
  induction l as [|x l IH]; intros [|z w] E; try discriminate E; [exists []; repeat split; intros ? ? []|].
  cbn in E. injection E as E1 E2. destruct (IH w E2) as (b & B1 & B2 & B3). exists ((x, z) :: b). cbn. rewrite B1, B2. repeat split.
  intros x' z' [E|Hin]; [injection E as <- <-; exact E1|auto].
Qed.


Lemma dedup_sub x : forall (es : tmap (KV := KV)) l, In x (dedup l es) -> In x es.
Proof.
  induction es as [|[k id] es IH]; intros l H; cbn [dedup] in H; [destruct H|].
  destruct (in_dec _ _ _); [right; eauto|]. destruct H as [E|H]; [left; exact E|right; eauto].
Qed.
Lemma srel_points m w : srel m w ->
  accounted keq (fun k => canon (filtered keep k)) canon (filtered keep) overflow create update limit w (points_now m).
Proof.
  intros (acts & s & H & Q & Hm & Hw & Hc & Hno & Hf). destruct (collect_refines s Q) as (acts' & s' & o & R1 & R2 & R3 & R4 & R5 & R6 & R7 & R8 & T1 & T2 & T3 & T4 & T5 & T6).
  pose proof (reach_inv _ _ H) as I.
  assert (H' : vrun v_init (acts ++ acts') = Some s') by (rewrite vrun_app, H; exact R1).
  pose proof (reach_inv _ _ H') as I'.
  assert (O := proj1 (Forall_forall _ _) (vi_outs _ _ _ _ _ _ _ _ I') o ltac:(rewrite R5; apply in_or_app; right; left; reflexivity)).
  rewrite Hm in R8. rewrite R4 in O.
  destruct (vi_cuts _ _ _ _ _ _ _ _ I) as (C1 & C2 & _).
  set (h := skipn (v_cutmap s) (v_hist s)) in *.
  assert (Wm : window (o_mapfrom o) (o_mapupto o) (v_hist s) = h) by (rewrite T3, T4; unfold now; apply window_all).
  destruct (map_combine_split raw seen h w Hw) as (b & B1 & B2 & B3).
  set (bk := map (fun z : applied * (attrs * V) => (a_class (fst z), snd z)) b).
  assert (Hb : forall e x, In (e, x) b -> In e (v_hist s) /\ a_attrs e = filtered keep (fst x) /\ a_val e = snd x).
  { intros e x Hin. pose proof (B3 _ _ Hin) as E. unfold raw, seen in E. injection E as E1 E2. repeat split; auto.
    apply (skipn_incl (v_cutmap s)). change (In e h). rewrite <- B1. apply (in_map fst) in Hin. exact Hin. }
  assert (Hin_b : forall e, In e h -> exists x, In (e, x) b).
  { intros e He. rewrite <- B1 in He. apply in_map_iff in He. destruct He as ([e' x] & E & He). cbn in E. subst e'. eauto. }
  assert (Hcl : forall e, In e (v_hist s) -> a_class e = canon (a_attrs e) \/ a_class e = overflow).
  { intros e He. destruct (vi_cls _ _ _ _ _ _ _ _ I e He) as [[E1 E2]|[E1 [E2|E2]]]; auto. left. rewrite E1, E2. symmetry. apply canon_nil. reflexivity. }
  assert (Hvals : forall c, vals keq c h = map (fun b => snd (snd b)) (filter (fun b => if keq (fst b) c then true else false) bk)).
  { intros c. rewrite <- B1. unfold bk, vals. clear -B3. induction b as [|[e x] b IH]; [reflexivity|]. cbn [map flat_map fst snd filter].
    rewrite IH by (intros; apply B3; right; assumption). destruct (keq (a_class e) c); [|reflexivity]. cbn. f_equal.
    pose proof (B3 e x (or_introl eq_refl)) as E. unfold raw, seen in E. now injection E. }
  exists bk. split; [unfold bk; rewrite map_map; exact B2|]. split; [|split; [|split]].
  - intros c x Hin. apply in_map_iff in Hin. destruct Hin as ([e x'] & E & Hin). cbn in E. injection E as <- <-. destruct (Hb _ _ Hin) as (E1 & E2 & E3).
    destruct (Hcl e E1) as [E|E]; [left; rewrite E, E2; reflexivity|].
    destruct (keq (a_class e) (canon (a_attrs e))) as [E'|Hne]; [left; rewrite E', E2; reflexivity|]. right. split; [exact E|].
    assert (He : In e h) by (rewrite <- B1; apply (in_map fst) in Hin; exact Hin).
    destruct (oo_route _ _ _ _ _ _ _ _ O e) as (cs & G1 & G2 & G3 & G4); [rewrite Wm; exact He|exact Hne|].
    exists cs. split; [exact G1|]. split; [exact G2|]. split; [rewrite <- E2; exact G3|]. intros c Hcs. destruct (G4 c Hcs) as (G5 & e' & G6 & G7 & G8). split; [exact G5|].
    rewrite Wm in G6. destruct (Hin_b _ G6) as (y & Hy). exists y. split; [unfold bk; apply in_map_iff; exists (e', y); split; [cbn; congruence|exact Hy]|].
    destruct (Hb _ _ Hy) as (_ & E4 & _). rewrite <- E4. exact G8.
  - rewrite <- R8, map_map. cbn [fst]. exact (oo_nodup _ _ _ _ _ _ _ _ O).
  - intros p Hp. rewrite <- R8 in Hp. apply in_map_iff in Hp. destruct Hp as (pt & <- & Hp). cbn [fst snd].
    destruct (oo_pts _ _ _ _ _ _ _ _ O pt Hp) as ([X1 X2] & X3 & X4 & X5).
    assert (Eu : p_upto pt = length (v_hist s)) by (unfold now in *; lia).
    destruct (p_attrs pt) as [|a0 al] eqn:Ea.
    + assert (En : canon [] = []) by (apply canon_nil; reflexivity). rewrite En in *.
      assert (Hex : flag m = true).
      { destruct (flag m) eqn:Efl; [reflexivity|]. exfalso.
        assert (In ([], p_val pt) (points_now m)) by (rewrite <- R8; apply in_map_iff; exists pt; rewrite Ea; auto).
        unfold SeqModel.points_now in H0. rewrite Efl in H0. cbn [app] in H0. apply in_flat_map in H0. destruct H0 as ([k id] & Hk & Hv). cbn [fst snd] in Hv.
        destruct (nth_error (heap m) id); [|destruct Hv]. destruct Hv as [Hv|[]]. injection Hv as -> _.
        assert (Hd : In ([], id) (match pick (ord (trackers m)) (trackers m) with Some es => es | None => [] end)).
        { eapply dedup_sub, Hk. }
        assert (Hd' : In ([], id) (trackers m)).
        { revert Hd. unfold pick. destruct (_ && _ && _); [|cbn; intros []]. intros Hd. apply in_flat_map in Hd. destruct Hd as (j & _ & Hd). destruct (nth_error (trackers m) j) eqn:En'; [|destruct Hd]. destruct Hd as [->|[]]. eapply nth_error_In, En'. }
        pose proof (vi_map _ _ _ _ _ _ _ _ I) as MI. rewrite Hm in MI.
        assert (Hl : exists id', lookup keq [] (trackers m) = Some id').
        { clear -Hd'. induction (trackers m) as [|[k j] t IH]; [destruct Hd'|]. cbn. destruct (keq k []); [eauto|]. destruct Hd' as [E|Hd']; [congruence|auto]. }
        destruct Hl as (id' & Hl). exact (proj1 (mi_ent _ _ _ _ _ _ _ _ MI _ _ Hl) eq_refl). }
      assert (Ew : forall c', c' = [] -> vals keq c' (window (p_from pt) (p_upto pt) (v_hist s)) = vals keq c' h).
      { intros c' ->. rewrite (X4 eq_refl), T5, Eu, window_all.
        assert (Hsp : skipn (v_cutno s) (v_hist s) = window (v_cutno s) (v_cutmap s) (v_hist s) ++ h).
        { unfold h, window. pose proof (skipn_skipn' (v_hist s) (v_cutno s) (v_cutmap s - v_cutno s)) as X. replace (v_cutno s + (v_cutmap s - v_cutno s)) with (v_cutmap s) in X by lia. exact X. }
        rewrite Hsp. unfold vals. rewrite flat_map_app.
        assert (E0 : flat_map (fun e => if keq (a_class e) [] then [a_val e] else []) (window (v_cutno s) (v_cutmap s) (v_hist s)) = []).
        { revert Hno. generalize (window (v_cutno s) (v_cutmap s) (v_hist s)). intros l Hl. induction l as [|e l IH]; [reflexivity|]. cbn [flat_map].
          destruct (keq (a_class e) []) as [E|_]; [exfalso; exact (Hl e (or_introl eq_refl) E)|]. apply IH. intros e' He'. apply Hl. right. exact He'. }
        rewrite E0. reflexivity. }
      split.
      * destruct (Hf Hex) as (e & He & Ee).
        assert (He' : In e h).
        { pose proof (skipn_skipn' (v_hist s) (v_cutno s) (v_cutmap s - v_cutno s)) as X. replace (v_cutno s + (v_cutmap s - v_cutno s)) with (v_cutmap s) in X by lia.
          rewrite X in He. apply in_app_or in He. destruct He as [He|He]; [exfalso; exact (Hno e He Ee)|exact He]. }
        destruct (Hin_b _ He') as (x & Hx). exists x. split; [|left; reflexivity]. unfold bk. apply in_map_iff. exists (e, x). cbn. rewrite Ee. auto.
      * rewrite X2. unfold agg. rewrite ?Ea, ?En, (Ew [] eq_refl), Hvals. reflexivity.
    + destruct X5 as (X5 & X6 & X7 & e & He & Ec & Ek); [discriminate|]. rewrite X5, T3, Eu, window_all in He. fold h in He.
      destruct (Hin_b _ He) as (x & Hx). destruct (Hb _ _ Hx) as (_ & E2 & _). split.
      * exists x. split; [unfold bk; apply in_map_iff; exists (e, x); cbn; rewrite Ec, ?Ea; auto|]. rewrite ?Ea in Ek. rewrite <- E2. exact Ek.
      * rewrite X2. unfold agg. rewrite X5, T3, Eu, window_all. fold h. rewrite ?Ea, Hvals. reflexivity.
  - intros c x Hin. apply in_map_iff in Hin. destruct Hin as ([e x'] & E & Hin). cbn in E. injection E as <- <-.
    assert (He : In e h) by (rewrite <- B1; apply (in_map fst) in Hin; exact Hin).
    assert (G : exists pt, In pt (o_pts o) /\ canon (p_attrs pt) = a_class e).
    { destruct (keq (a_class e) []) as [E|E].
      - destruct (oo_no _ _ _ _ _ _ _ _ O e) as (pt & P1 & P2); auto.
        + rewrite T5, T1. unfold now. rewrite window_all. pose proof (skipn_skipn' (v_hist s) (v_cutno s) (v_cutmap s - v_cutno s)) as X. replace (v_cutno s + (v_cutmap s - v_cutno s)) with (v_cutmap s) in X by lia.
          rewrite X. apply in_or_app. right. exact He.
        + rewrite T6. destruct (vi_hist _ _ _ _ _ _ _ _ I e (proj1 (Hb _ _ Hin))) as (c & Hc' & _). apply in_seq. split; [lia|]. apply nth_error_Some. rewrite Hc'. discriminate.
        + exists pt. split; [exact P1|]. rewrite P2, E. apply canon_nil. reflexivity.
      - apply (oo_all _ _ _ _ _ _ _ _ O e); [rewrite Wm; exact He|exact E]. }
    destruct G as (pt & P1 & P2). exists (p_attrs pt, p_val pt). split; [rewrite <- R8; apply in_map_iff; eauto|exact P2].
Qed.
End seq.
