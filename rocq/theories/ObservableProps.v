(** Theorems for C51 and C52. *)
From Coq Require Import String List Bool Arith NArith ZArith Lia Permutation.
From Verif Require Import Str AttrModel AttrProofs ValueMapModel ValueMapProofs ValueMapProps ObservableModel.
Import ListNotations.

(** * C52 *)

(** The n-th delta interval starts at the end of the one before (the first at the
    creation of the stream) and ends at the n-th clock reading; cumulative
    intervals all start at the creation. *)
Theorem C52_delta_intervals_tile : forall start clock,
  length (intervals Delta start clock) = length clock /\
  (forall n i, nth_error (intervals Delta start clock) n = Some i -> nth_error clock n = Some (snd i)) /\
  (forall i, nth_error (intervals Delta start clock) 0 = Some i -> fst i = start) /\
  (forall n i j, nth_error (intervals Delta start clock) n = Some i -> nth_error (intervals Delta start clock) (S n) = Some j -> fst j = snd i).
Proof.
  intros start clock. revert start. induction clock as [|t clock IH]; intros start.
  - repeat split; intros; try (destruct n; discriminate); discriminate.
  - destruct (IH t) as (H1 & H2 & H3 & H4). cbn [intervals aggregate_time]. split; [cbn; auto|]. split; [|split].
    + intros [|n] i Hi; [injection Hi as <-; reflexivity|apply H2, Hi].
    + intros i Hi. injection Hi as <-. reflexivity.
    + intros [|n] i j Hi Hj; [injection Hi as <-; apply H3, Hj|apply (H4 n i j Hi Hj)].
Qed.
Print Assumptions C52_delta_intervals_tile.
Theorem C52_cumulative_intervals : forall start clock n,
  nth_error (intervals Cumulative start clock) n = option_map (fun t => (start, t)) (nth_error clock n).
Proof. intros start clock. induction clock as [|t clock IH]; intros [|n]; cbn; auto. Qed.
Print Assumptions C52_cumulative_intervals.
(** With a clock that does not go back, intervals are well-formed. *)
Theorem C52_intervals_ordered : forall t start clock i,
  (forall n x y, nth_error (start :: clock) n = Some x -> nth_error (start :: clock) (S n) = Some y -> (x <= y)%Z) ->
  In i (intervals t start clock) -> (start <= fst i <= snd i)%Z.
Proof.
  intros t start clock i. assert (G : forall clock s0, (s0 <= s0)%Z -> (forall n x y, nth_error (s0 :: clock) n = Some x -> nth_error (s0 :: clock) (S n) = Some y -> (x <= y)%Z) ->
    (forall y, In y clock -> (s0 <= y)%Z)).
  { clear. induction clock as [|c clock IH]; intros s0 _ Hm y Hy; [destruct Hy|]. destruct Hy as [->|Hy]; [exact (Hm 0 s0 y eq_refl eq_refl)|].
    specialize (IH c (Z.le_refl c) (fun n x z => Hm (S n) x z) y Hy). pose proof (Hm 0 s0 c eq_refl eq_refl). lia. }
  destruct t.
  - revert start. induction clock as [|c clock IH]; intros start Hm Hi; [destruct Hi|]. cbn in Hi. pose proof (Hm 0 start c eq_refl eq_refl) as H0.
    destruct Hi as [<-|Hi]; [cbn; lia|]. pose proof (IH c (fun n x z => Hm (S n) x z) Hi). lia.
  - intros Hm Hi. assert (Hs := G clock start (Z.le_refl _) Hm). apply In_nth_error in Hi. destruct Hi as [n Hn]. rewrite C52_cumulative_intervals in Hn.
    destruct (nth_error clock n) as [x|] eqn:E; [|discriminate]. injection Hn as <-. cbn. apply nth_error_In in E. specialize (Hs x E). lia.
Qed.
Print Assumptions C52_intervals_ordered.
Example C52_nonvacuous : intervals Delta 10%Z [15; 22; 30]%Z = [(10, 15); (15, 22); (22, 30)]%Z /\ intervals Cumulative 10%Z [15; 22]%Z = [(10, 15); (10, 22)]%Z.
Proof. split; reflexivity. Qed.

(** * C51 *)
Section table.
Context {K T : Type}.
Variable keq : forall x y : K, {x = y} + {x <> y}.
Lemma get_put k v (m : list (K * T)) k' : get keq k' (put keq k v m) = if keq k k' then Some v else get keq k' m.
Proof.
  unfold put. cbn. destruct (keq k k') as [<-|H]; [reflexivity|]. induction m as [|[k0 x] m IH]; cbn; [reflexivity|].
  destruct (keq k0 k) as [->|H0]; cbn; [destruct (keq k k'); [contradiction|exact IH]|destruct (keq k0 k'); [reflexivity|exact IH]].
Qed.
Lemma get_fold pts : forall (m : list (K * T)) k, NoDup (map fst pts) ->
  get keq k (fold_left (fun m kv => put keq (fst kv) (snd kv) m) pts m) = match get keq k pts with Some v => Some v | None => get keq k m end.
Proof.
  induction pts as [|[k0 v] pts IH]; intros m k Hn; cbn [fold_left get fst snd]; [reflexivity|]. cbn in Hn. inversion Hn as [|? ? N1 N2]; subst.
  rewrite IH, get_put by exact N2. destruct (keq k0 k) as [<-|H]; [|destruct (get keq k pts); reflexivity].
  assert (get keq k0 pts = None) as ->; [|reflexivity]. clear -N1. induction pts as [|[k1 x] pts IH]; [reflexivity|]. cbn in *. destruct (keq k1 k0) as [->|]; [exfalso; auto|]. apply IH. tauto.
Qed.
Lemma get_in k (m : list (K * T)) v : NoDup (map fst m) -> (In (k, v) m <-> get keq k m = Some v).
Proof.
  induction m as [|[k0 x] m IH]; cbn; [split; [intros []|discriminate]|]. intros H. inversion H as [|? ? N1 N2]; subst. destruct (keq k0 k) as [->|Hk].
  - split; [intros [E|Hin]; [congruence|exfalso; apply N1, in_map_iff; exists (k, v); auto]|intros E; injection E as ->; auto].
  - rewrite <- (IH N2). split; [intros [E|Hin]; [congruence|exact Hin]|auto].
Qed.
End table.

(** What a collection reports for a key: its value minus the value the same key had
    in the collection before, or minus zero if it had none. *)
Theorem C51_report : forall K T (keq : forall x y : K, {x = y} + {x <> y}) (sub : T -> T -> T) zero cycles n pts k v,
  (forall pts, In pts cycles -> NoDup (map fst pts)) ->
  nth_error cycles n = Some pts -> In (k, v) pts ->
  exists out, nth_error (pre_run keq sub zero [] cycles) n = Some out /\ map fst out = map fst pts /\
  In (k, sub v (match n with
                | 0 => zero
                | S m => match nth_error cycles m with Some prev => match get keq k prev with Some x => x | None => zero end | None => zero end
                end)) out.
Proof.
  intros K T keq sub zero cycles n pts k v Hd Hn Hin.
  assert (G : forall cycles rep n pts, (forall pts, In pts cycles -> NoDup (map fst pts)) -> nth_error cycles n = Some pts -> In (k, v) pts ->
    exists out, nth_error (pre_run keq sub zero rep cycles) n = Some out /\ map fst out = map fst pts /\
    In (k, sub v (match n with 0 => match get keq k rep with Some x => x | None => zero end | S m => match nth_error cycles m with Some prev => match get keq k prev with Some x => x | None => zero end | None => zero end end)) out).
  { clear. induction cycles as [|c cycles IH]; intros rep n pts Hd Hn Hin; [destruct n; discriminate|]. destruct n as [|n].
    - injection Hn as ->. cbn. eexists. split; [reflexivity|]. split; [rewrite map_map; reflexivity|]. apply in_map_iff. exists (k, v). auto.
    - cbn [nth_error] in Hn. destruct (IH (fold_left (fun m kv => put keq (fst kv) (snd kv) m) c []) n pts (fun p Hp => Hd p (or_intror Hp)) Hn Hin) as (out & O1 & O2 & O3).
      exists out. split; [exact O1|]. split; [exact O2|]. destruct n as [|n]; [|exact O3]. cbn [nth_error]. rewrite get_fold in O3 by (apply Hd; left; reflexivity). cbn [get] in O3. destruct (get keq k c); exact O3. }
  destruct (G cycles [] n pts Hd Hn Hin) as (out & O1 & O2 & O3). exists out. split; [exact O1|]. split; [exact O2|]. destruct n; exact O3.
Qed.
Print Assumptions C51_report.

(** If a key is observed in every collection, its deltas add up to its latest value. *)
Theorem C51_deltas_add_up : forall K (keq : forall x y : K, {x = y} + {x <> y}) cycles k last,
  (forall pts, In pts cycles -> NoDup (map fst pts) /\ exists v, In (k, v) pts) ->
  (exists pre pts, cycles = pre ++ [pts] /\ In (k, last) pts) ->
  wrap_u64 (zsum (map (fun out => match get keq k out with Some d => d | None => 0%Z end) (pre_run keq (fun a b => wrap_u64 (a - b)) 0%Z [] cycles))) = wrap_u64 last.
Proof.
  intros K keq cycles k last Hd (pre & pts & -> & Hl).
  assert (G : forall pre rep, (forall p, In p (pre ++ [pts]) -> NoDup (map fst p) /\ exists v, In (k, v) p) ->
    wrap_u64 (zsum (map (fun out => match get keq k out with Some d => d | None => 0%Z end) (pre_run keq (fun a b => wrap_u64 (a - b)) 0%Z rep (pre ++ [pts]))) + (match get keq k rep with Some x => x | None => 0 end))%Z = wrap_u64 last).
  { clear Hd pre. induction pre as [|c pre IH]; intros rep Hd.
    - cbn. destruct (Hd pts (or_introl eq_refl)) as [N _].
      assert (E : get keq k (map (report keq (fun a b => wrap_u64 (a - b)) 0%Z rep) pts) = Some (wrap_u64 (last - match get keq k rep with Some x => x | None => 0%Z end))).
      { apply get_in; [rewrite map_map; cbn; exact N|]. apply in_map_iff. exists (k, last). auto. }
      rewrite E. rewrite Z.add_0_r, wrap_u64_add. f_equal. ring.
    - cbn [app pre_run pre_delta map]. rewrite zsum_cons. destruct (Hd c (or_introl eq_refl)) as (N & v & Hv).
      assert (E : get keq k (map (report keq (fun a b => wrap_u64 (a - b)) 0%Z rep) c) = Some (wrap_u64 (v - match get keq k rep with Some x => x | None => 0%Z end))).
      { apply get_in; [rewrite map_map; cbn; exact N|]. apply in_map_iff. exists (k, v). auto. }
      rewrite E. specialize (IH (fold_left (fun m kv => put keq (fst kv) (snd kv) m) c []) (fun p Hp => Hd p (or_intror Hp))).
      rewrite get_fold in IH by exact N. rewrite (proj1 (get_in keq k c v N) Hv) in IH. rewrite <- IH.
      rewrite <- Z.add_assoc, wrap_u64_add. f_equal. ring. }
  specialize (G pre [] Hd). cbn in G. rewrite Z.add_0_r in G. exact G.
Qed.
Print Assumptions C51_deltas_add_up.

(** * In a stream *)
Section stream.
Context {Vl : Type}.
Variable veq : forall x y : Vl, {x = y} + {x <> y}.
(** The points a delta collection of the store yields, and what is then reported. *)
Definition observed (o : out (KV := kv Vl) (A := Z)) : list (list (kv Vl) * Z) := map (fun p => (p_attrs p, p_val p)) (o_pts o).
Definition reports (s : vstate (KV := kv Vl) (A := Z) (V := Z)) : list (list (list (kv Vl) * Z)) :=
  pre_run (attrs_eq_dec veq) (fun a b => wrap_u64 (a - b)) 0%Z [] (map observed (v_outs s)).
End stream.
(** When observations give their attributes sorted and without duplicates, the n-th
    report for a set is its last observation in the n-th cycle minus its last
    observation in the cycle before (if any). *)
Theorem C51_differences : forall Vl veq yes srt keep limit acts s n o p,
  sorter_ok (Vl := Vl) srt -> stream_run veq yes srt keep 0%Z assign limit true acts = Some s ->
  (forall c, In c (v_calls s) -> sort_and_dedup srt (c_attrs c) = c_attrs c) ->
  nth_error (v_outs s) n = Some o -> In p (o_pts o) ->
  p_val p = last (recorded veq (p_attrs p) (window (p_from p) (p_upto p) (v_hist s))) 0%Z /\
  exists out, nth_error (reports veq s) n = Some out /\
  In (p_attrs p, wrap_u64 (p_val p - match n with
                                     | O => 0
                                     | S m => match nth_error (v_outs s) m with
                                              | Some o' => match get (attrs_eq_dec veq) (p_attrs p) (observed o') with Some x => x | None => 0 end
                                              | None => 0
                                              end
                                     end)%Z) out.
Proof.
  intros Vl veq yes srt keep limit acts s n o p Hs H Hc Ho Hp.
  assert (Hcan : forall o, In o (v_outs s) -> forall p, In p (o_pts o) -> sort_and_dedup srt (p_attrs p) = p_attrs p).
  { intros o' Ho' p' Hp'. destruct (attrs_eq_dec veq (p_attrs p') []) as [->|E]; [apply canon_nil; auto|].
    destruct (C46_attributed_points_are_recorded _ _ _ _ _ _ _ _ _ _ _ _ _ o' p' Hs H Ho' Hp' E) as (e & He & Hcl & [E1|E1]); [congruence|]. rewrite E1.
    destruct (C42_C43_applied_once _ _ _ _ _ _ _ _ _ _ _ _ _ Hs H) as (_ & A & _). destruct (A e) as (c & A1 & A2 & _); [eapply skipn_incl, window_incl, He|]. rewrite <- A2. apply Hc. eapply nth_error_In, A1. }
  assert (Hin : In o (v_outs s)) by (eapply nth_error_In, Ho). split.
  - destruct (C50_last_value _ _ _ _ _ _ _ _ _ _ _ o p Hs H Hin Hp) as (_ & E & _). rewrite E, (Hcan o Hin p Hp). reflexivity.
  - destruct (C51_report _ _ (attrs_eq_dec veq) (fun a b => wrap_u64 (a - b)) 0%Z (map observed (v_outs s)) n (observed o) (p_attrs p) (p_val p)) as (out & O1 & O2 & O3).
    + intros pts Hpts. apply in_map_iff in Hpts. destruct Hpts as (o' & <- & Ho'). unfold observed. rewrite map_map. cbn [fst].
      destruct (C44_points _ _ _ _ _ _ _ _ _ _ _ _ o' Hs H Ho') as (N & _). rewrite (map_ext_in (fun p => p_attrs p) (fun p => sort_and_dedup srt (p_attrs p))); [exact N|]. intros p' Hp'. symmetry. apply (Hcan o' Ho' p' Hp').
    + rewrite nth_error_map, Ho. reflexivity.
    + apply in_map_iff. exists p. auto.
    + exists out. split; [exact O1|]. destruct n as [|m]; [exact O3|]. rewrite nth_error_map in O3. destruct (nth_error (v_outs s) m); exact O3.
Qed.
Print Assumptions C51_differences.

(** Neither condition can be dropped.  A set skipped in one cycle starts again from
    zero, so its deltas exceed the latest observation. *)
Definition ex_obs (acts : list (vaction (KV := kv nat) (V := Z))) := stream_run Nat.eq_dec 1 isort None 0%Z assign 10 true acts.
Definition one (k : list (kv nat)) (v : Z) (i : nat) : list (vaction (KV := kv nat) (V := Z)) := [Measure k v; MStep i; MStep i].
Definition skipping := one [ka 1] 10%Z 0 ++ [Collect; CStep [0]; Collect; CStep []] ++ one [ka 1] 15%Z 1 ++ [Collect; CStep [0]].
Theorem C113_skipped_set_refuted : ~ (forall acts s k, ex_obs acts = Some s -> k <> [] ->
  (forall c, In c (v_calls s) -> sort_and_dedup isort (c_attrs c) = c_attrs c) -> v_pc s = CIdle -> v_cutmap s = length (v_hist s) ->
  zsum (map (fun out => match get (attrs_eq_dec Nat.eq_dec) k out with Some d => d | None => 0%Z end) (reports Nat.eq_dec s)) = last (recorded Nat.eq_dec k (v_hist s)) 0%Z).
Proof.
  intros H. specialize (H skipping). destruct (ex_obs skipping) as [s|] eqn:E; [|vm_compute in E; discriminate]. specialize (H s [ka 1] eq_refl).
  vm_compute in E. injection E as <-. assert (F : 25%Z = 15%Z); [|discriminate]. refine (eq_trans _ (eq_trans (H _ _ _ _) _)); try (vm_compute; reflexivity).
  - discriminate.
  - intros c [<-|[<-|[]]]; reflexivity.
Qed.
Print Assumptions C113_skipped_set_refuted.
(** Attributes given in another order than sorted: the table is keyed by whichever
    of the two stored keys the iteration met first, and the second report is the
    full value although the set was observed in both cycles. *)
Definition reordered := one [kb 2; ka 1] 10%Z 0 ++ [Collect; CStep [0; 1]] ++ one [kb 2; ka 1] 15%Z 1 ++ [Collect; CStep [1; 0]].
Theorem C113_attribute_order_refuted : ~ (forall acts s, ex_obs acts = Some s -> v_pc s = CIdle ->
  (forall o, In o (v_outs s) -> exists p, In p (o_pts o) /\ sort_and_dedup isort (p_attrs p) = [ka 1; kb 2]) -> v_cutmap s = length (v_hist s) ->
  zsum (map (fun out => zsum (map snd out)) (reports Nat.eq_dec s)) = last (recorded Nat.eq_dec [ka 1; kb 2] (v_hist s)) 0%Z).
Proof.
  intros H. specialize (H reordered). destruct (ex_obs reordered) as [s|] eqn:E; [|vm_compute in E; discriminate]. specialize (H s eq_refl).
  vm_compute in E. injection E as <-. assert (F : 25%Z = 15%Z); [|discriminate]. refine (eq_trans _ (eq_trans (H _ _ _) _)); try (vm_compute; reflexivity).
  intros o [<-|[<-|[]]]; eexists; (split; [left; reflexivity|vm_compute; reflexivity]).
Qed.
Print Assumptions C113_attribute_order_refuted.

Definition steady := one [ka 1] 10%Z 0 ++ one [] 4%Z 1 ++ [Collect; CStep []; CStep [0]] ++ one [] 9%Z 2 ++ one [ka 1] 15%Z 3 ++ [Collect; CStep []; CStep [0]].
Example C51_nonvacuous : exists s, ex_obs steady = Some s /\ (forall c, In c (v_calls s) -> sort_and_dedup isort (c_attrs c) = c_attrs c) /\
  map (map (fun e => (map snd (fst e), snd e))) (reports Nat.eq_dec s) = [[([], 4%Z); ([1], 10%Z)]; [([], 5%Z); ([1], 5%Z)]].
Proof. eexists. split; [vm_compute; reflexivity|]. split; [|vm_compute; reflexivity]. intros c Hc. repeat destruct Hc as [<-|Hc]; try reflexivity. destruct Hc. Qed.
