(** Invariants of the aggregation store under every schedule. *)
From Coq Require Import List Arith Bool Lia Permutation.
From Verif Require Import ProviderModel ProviderProps ValueMapModel.
Import ListNotations.

Section proofs.
Context {KV A V : Type}.
Notation attrs := (list KV).
Variable keq : forall x y : attrs, {x = y} + {x <> y}.
Variable canon : attrs -> attrs.
Variable overflow : attrs.
Variable keep : option (KV -> bool).
Variable create : A.
Variable update : A -> V -> A.
Variable limit : nat.
Variable delta : bool.
Hypothesis canon_idem : forall k, canon (canon k) = canon k.
Hypothesis canon_nil : forall k, canon k = [] <-> k = [].
Hypothesis canon_ovf : canon overflow = overflow.
Hypothesis ovf_ne : overflow <> [].

Notation lookup := (lookup keq).
Notation insert := (insert keq).
Notation vmap := (@vmap KV A).
Notation find := (find keq canon).
Notation upd := (upd update).
Notation write := (write keq canon overflow create update limit).
Notation vstate := (@vstate KV A V).
Notation applied := (@applied KV V).
Notation point := (@point KV A).
Notation out := (@out KV A).
Notation vstep := (vstep keq canon overflow keep create update limit delta).
Notation vrun := (vrun keq canon overflow keep create update limit delta).
Notation v_init := (v_init create).

(** * The map *)
Lemma lookup_app k m e : lookup k (m ++ [e]) = match lookup k m with Some x => Some x | None => if keq (fst e) k then Some (snd e) else None end.
Proof. destruct e as [k0 x0]. induction m as [|[k' x] m IH]; cbn; [reflexivity|]. destruct (keq k' k); [reflexivity|exact IH]. Qed.
Lemma lookup_filter k k' m : k <> k' -> lookup k' (List.filter (fun e : attrs * nat => if keq (fst e) k then false else true) m) = lookup k' m.
Proof.
  intros H. induction m as [|[k0 x] m IH]; cbn; [reflexivity|]. destruct (keq k0 k) as [->|Hk]; cbn.
  - destruct (keq k k'); [contradiction|exact IH].
  - destruct (keq k0 k'); [reflexivity|exact IH].
Qed.
Lemma lookup_filter_same k m : lookup k (List.filter (fun e : attrs * nat => if keq (fst e) k then false else true) m) = None.
Proof. induction m as [|[k0 x] m IH]; cbn; [reflexivity|]. destruct (keq k0 k) as [->|Hk]; cbn; [exact IH|]. destruct (keq k0 k); [contradiction|exact IH]. Qed.
Lemma lookup_insert k id m k' : lookup k' (insert k id m) = if keq k k' then Some id else lookup k' m.
Proof.
  unfold ValueMapModel.insert. rewrite lookup_app. cbn [fst snd]. destruct (keq k k') as [<-|H].
  - rewrite lookup_filter_same. reflexivity.
  - rewrite (lookup_filter _ _ _ H). destruct (lookup k' m); reflexivity.
Qed.
Lemma nodup_insert k id m : NoDup (map fst m) -> NoDup (map fst (insert k id m)).
Proof.
  intros H. unfold ValueMapModel.insert. rewrite map_app. cbn [map fst].
  assert (Hf : forall x, In x (map fst (List.filter (fun e : attrs * nat => if keq (fst e) k then false else true) m)) -> In x (map fst m) /\ x <> k).
  { intros x. rewrite !in_map_iff. intros ([k0 i0] & <- & He). apply filter_In in He. cbn in *. destruct He as [He Hk].
    destruct (keq k0 k); [discriminate|]. split; [exists (k0, i0); auto|assumption]. }
  assert (Hn : NoDup (map fst (List.filter (fun e : attrs * nat => if keq (fst e) k then false else true) m))).
  { clear Hf. induction m as [|[k0 x] m IH]; cbn; [constructor|]. cbn in H. inversion H; subst. destruct (keq k0 k); [auto|]. cbn. constructor; [|auto].
    intros Hin. apply H2. clear -Hin. rewrite in_map_iff in *. destruct Hin as (e & E & He). apply filter_In in He. exists e. tauto. }
  pose proof (Add_app k (map fst (List.filter (fun e : attrs * nat => if keq (fst e) k then false else true) m)) []) as X.
  rewrite app_nil_r in X. apply (proj2 (NoDup_Add X)). split; [exact Hn|]. intros Hin. apply Hf in Hin. tauto.
Qed.
Lemma lookup_in k id m : NoDup (map fst m) -> (In (k, id) m <-> lookup k m = Some id).
Proof.
  induction m as [|[k0 x] m IH]; cbn; [split; [intros []|discriminate]|]. intros H. inversion H as [|? ? Hni Hnd]; subst.
  destruct (keq k0 k) as [->|Hk].
  - split; [intros [E|Hin]; [congruence|exfalso; apply Hni, in_map_iff; exists (k, id); auto]|intros E; injection E as ->; auto].
  - rewrite <- (IH Hnd). split; [intros [E|Hin]; [congruence|exact Hin]|auto].
Qed.

(** * Histories *)
Definition window (f u : nat) (h : list applied) : list applied := skipn f (firstn u h).
Definition vals (c : attrs) (w : list applied) : list V :=
  flat_map (fun e => if keq (a_class e) c then [a_val e] else []) w.
Definition agg (c : attrs) (w : list applied) : A := fold_left update (vals c w) create.
Lemma vals_app c w w' : vals c (w ++ w') = vals c w ++ vals c w'.
Proof. apply flat_map_app. Qed.
Lemma agg_snoc_same c w e : a_class e = c -> agg c (w ++ [e]) = update (agg c w) (a_val e).
Proof. intros <-. unfold agg. rewrite vals_app, fold_left_app. cbn. destruct (keq (a_class e) (a_class e)); [reflexivity|contradiction]. Qed.
Lemma agg_snoc_other c w e : a_class e <> c -> agg c (w ++ [e]) = agg c w.
Proof. intros H. unfold agg. rewrite vals_app, fold_left_app. cbn. destruct (keq (a_class e) c); [contradiction|reflexivity]. Qed.
Lemma agg_none c w : (forall e, In e w -> a_class e <> c) -> agg c w = create.
Proof.
  intros H. unfold agg. assert (vals c w = []) as ->; [|reflexivity]. induction w as [|e w IH]; [reflexivity|]. cbn.
  destruct (keq (a_class e) c) as [E|]; [exfalso; exact (H e (or_introl eq_refl) E)|]. apply IH. intros e' He. apply H. right. exact He.
Qed.
Lemma window_grow f u h x : u <= length h -> window f u (h ++ x) = window f u h.
Proof. intros H. unfold window. rewrite firstn_app. replace (u - length h) with 0 by lia. cbn. rewrite app_nil_r. reflexivity. Qed.
Lemma window_all f h : window f (length h) h = skipn f h.
Proof. unfold window. rewrite firstn_all. reflexivity. Qed.
Lemma skipn_snoc {T} n (l : list T) x : n <= length l -> skipn n (l ++ [x]) = skipn n l ++ [x].
Proof. intros H. rewrite skipn_app. replace (n - length l) with 0 by lia. reflexivity. Qed.
Lemma window_incl f u h e : In e (window f u h) -> In e (skipn f h).
Proof.
  unfold window. revert f u. induction h as [|x h IH]; intros f u; [rewrite firstn_nil; auto|].
  destruct u as [|u]; cbn [firstn]; [rewrite skipn_nil; intros []|]. destruct f as [|f]; cbn [skipn].
  - intros [->|H]; [left; reflexivity|right]. specialize (IH 0 u H). cbn in IH. exact IH.
  - apply IH.
Qed.
Lemma skipn_incl {T} n (l : list T) x : In x (skipn n l) -> In x l.
Proof. intros H. rewrite <- (firstn_skipn n l). apply in_or_app. auto. Qed.

(** * The map part of the invariant; [w] is the history since the last reset *)
Record minv (m : vmap) (w : list applied) : Prop := mk_mi {
  mi_keys : NoDup (map fst (trackers m));
  mi_ent : forall k id, lookup k (trackers m) = Some id -> k <> [] /\ lookup (canon k) (trackers m) = Some id;
  mi_inj : forall k1 k2 id, lookup k1 (trackers m) = Some id -> lookup k2 (trackers m) = Some id -> canon k1 = canon k2;
  mi_val : forall k id, lookup k (trackers m) = Some id -> nth_error (heap m) id = Some (agg (canon k) w);
  mi_has : forall e, In e w -> a_class e <> [] -> lookup (a_class e) (trackers m) <> None;
  mi_src : forall k id, lookup k (trackers m) = Some id -> exists e, In e w /\ a_class e = canon k /\ (k = canon k \/ k = a_attrs e);
  mi_cls : forall e, In e w -> canon (a_class e) = a_class e;
  mi_cnt : exists ins, NoDup ins /\ length ins = count m /\ count m <= limit /\
     (forall c, In c ins -> exists e, In e w /\ a_class e = c /\ canon (a_attrs e) = c) /\
     (forall k id, lookup k (trackers m) = Some id -> In (canon k) ins \/ canon k = overflow) /\
     (forall e, In e w -> a_class e <> canon (a_attrs e) -> limit <= count m /\ ~ In (canon (a_attrs e)) ins) /\
     (forall c, In c ins -> lookup c (trackers m) <> None) }.

Lemma minv_nil fl na : minv (mk_vm [] [] 0 fl na) [].
Proof.
  split; cbn; try discriminate; try (intros e []); try constructor; try discriminate.
  exists []. split; [constructor|]. split; [reflexivity|]. split; [lia|]. split; [intros ? []|]. split; [discriminate|]. split; intros ? [].
Qed.

(** A fresh tracker's address is in no entry. *)
Lemma heap_fresh m w : minv m w -> forall k id, lookup k (trackers m) = Some id -> id < length (heap m).
Proof. intros I k id H. apply nth_error_Some. rewrite (mi_val _ _ I _ _ H). discriminate. Qed.

Lemma minv_upd m w e id k : minv m w -> lookup k (trackers m) = Some id -> a_class e = canon k ->
  (a_class e <> canon (a_attrs e) -> limit <= count m /\ lookup (canon (a_attrs e)) (trackers m) = None) -> minv (upd id (a_val e) m) (w ++ [e]).
Proof.
  intros I Hk Hc Hr. unfold ValueMapModel.upd. rewrite (mi_val _ _ I _ _ Hk).
  assert (Hin : forall e', In e' w -> In e' (w ++ [e])) by (intros; apply in_or_app; auto).
  split; cbn [trackers heap count flag noattr].
  - apply I.
  - apply I.
  - apply I.
  - intros k' id' Hk'. rewrite nth_set_nth. destruct (Nat.eqb_spec id id') as [<-|Hne].
    + rewrite (mi_val _ _ I _ _ Hk). pose proof (mi_inj _ _ I _ _ _ Hk Hk') as E. rewrite E. rewrite <- E, <- Hc, agg_snoc_same by reflexivity. reflexivity.
    + rewrite agg_snoc_other; [exact (mi_val _ _ I _ _ Hk')|]. intros E. apply Hne.
      destruct (mi_ent _ _ I _ _ Hk) as [_ H1]. destruct (mi_ent _ _ I _ _ Hk') as [_ H2]. rewrite <- Hc, E in H1. congruence.
  - intros e' Hin' Hne. apply in_app_or in Hin'. destruct Hin' as [Hin'|[<-|[]]]; [exact (mi_has _ _ I _ Hin' Hne)|].
    rewrite Hc. destruct (mi_ent _ _ I _ _ Hk) as [_ H1]. congruence.
  - intros k' id' Hk'. destruct (mi_src _ _ I _ _ Hk') as (e' & H1 & H2). eauto.
  - intros e' Hin'. apply in_app_or in Hin'. destruct Hin' as [Hin'|[<-|[]]]; [exact (mi_cls _ _ I _ Hin')|]. rewrite Hc. apply canon_idem.
  - destruct (mi_cnt _ _ I) as (ins & H1 & H2 & H3 & H4 & H5 & H6 & H7). exists ins. repeat split; auto.
    + intros c Hin'. destruct (H4 c Hin') as (e' & ? & ?). eauto.
    + apply in_app_or in H. destruct H as [H|[<-|[]]]; [exact (proj1 (H6 _ H H0))|apply Hr, H0].
    + apply in_app_or in H. destruct H as [H|[<-|[]]]; [exact (proj2 (H6 _ H H0))|]. intros X. apply (H7 _ X). apply Hr, H0.
Qed.
Lemma find_lookup m w k id : minv m w -> find k m = Some id -> exists k', lookup k' (trackers m) = Some id /\ canon k' = canon k.
Proof.
  intros I. unfold ValueMapModel.find. destruct (lookup k (trackers m)) eqn:E.
  - intros H. injection H as <-. eauto.
  - intros H. exists (canon k). rewrite canon_idem. auto.
Qed.
Lemma write_minv m w k v m' c i : minv m w -> k <> [] -> write k v m = (m', c) ->
  minv m' (w ++ [mk_ap i k c v]) /\ (c = canon k \/ c = overflow) /\ flag m' = flag m /\ noattr m' = noattr m.
Proof.
  intros I Hk. unfold ValueMapModel.write. destruct (find k m) as [id|] eqn:Ef.
  { intros E. injection E as <- <-. destruct (find_lookup _ _ _ _ I Ef) as (k' & H1 & H2).
    split; [|split; [auto|unfold ValueMapModel.upd; destruct (nth_error (heap m) id); auto]].
    apply (minv_upd m w (mk_ap i k (canon k) v) id k' I H1); cbn; congruence. }
  assert (H1 : lookup k (trackers m) = None /\ lookup (canon k) (trackers m) = None).
  { unfold ValueMapModel.find in Ef. destruct (lookup k (trackers m)); [discriminate|auto]. }
  destruct H1 as [H1 H2]. destruct (Nat.ltb_spec (count m) limit) as [Hlt|Hge].
  - intros E. injection E as <- <-. split; [|auto]. set (e := mk_ap i k (canon k) v). set (id := length (heap m)).
    assert (Hin : forall e', In e' w -> In e' (w ++ [e])) by (intros; apply in_or_app; auto).
    assert (HL : forall k', lookup k' (insert (canon k) id (insert k id (trackers m))) = 
       if keq (canon k) k' then Some id else if keq k k' then Some id else lookup k' (trackers m)).
    { intros k'. rewrite !lookup_insert. reflexivity. }
    assert (HS : forall k' x, lookup k' (insert (canon k) id (insert k id (trackers m))) = Some x -> 
       (x = id /\ canon k' = canon k /\ (k' = canon k \/ k' = k)) \/ (x <> id /\ lookup k' (trackers m) = Some x /\ canon k' <> canon k)).
    { intros k' x. rewrite HL. destruct (keq (canon k) k') as [<-|]; [intros E; injection E as <-; left; auto|].
      destruct (keq k k') as [<-|]; [intros E; injection E as <-; left; auto|]. intros E. right. pose proof (heap_fresh _ _ I _ _ E). split; [unfold id; lia|]. split; [exact E|].
      intros E2. destruct (mi_ent _ _ I _ _ E) as [_ E3]. congruence. }
    assert (Hnow : forall e', In e' w -> a_class e' <> canon k).
    { intros e' He E. apply (mi_has _ _ I _ He); [rewrite E; intros E3; apply (proj1 (canon_nil k)) in E3; contradiction|congruence]. }
    split; cbn [trackers heap count flag noattr].
    + apply nodup_insert, nodup_insert, I.
    + intros k' x Hx. destruct (HS _ _ Hx) as [(-> & E & Ek)|(Hne & E & Ec)].
      * split; [destruct Ek as [-> | ->]; [intros E3; apply (proj1 (canon_nil k)) in E3; contradiction|exact Hk]|].
        rewrite HL, E. destruct (keq (canon k) (canon k)); [reflexivity|contradiction].
      * destruct (mi_ent _ _ I _ _ E) as [E1 E2]. split; [exact E1|]. rewrite HL.
        destruct (keq (canon k) (canon k')) as [E3|]; [congruence|]. destruct (keq k (canon k')) as [E3|]; [|exact E2]. congruence.
    + intros k1 k2 x G1 G2. destruct (HS _ _ G1) as [(-> & E & _)|(Hne & E & _)]; destruct (HS _ _ G2) as [(E1 & E' & _)|(Hne' & E' & _)]; try congruence.
      exact (mi_inj _ _ I _ _ _ E E').
    + intros k' x Hx. destruct (HS _ _ Hx) as [(-> & E & _)|(Hne & E & Ec)].
      * unfold id. rewrite nth_error_app2, Nat.sub_diag by lia. cbn. rewrite E, (agg_snoc_same (canon k) w e eq_refl), agg_none by exact Hnow. reflexivity.
      * rewrite nth_error_app1 by (apply (heap_fresh _ _ I _ _ E)). rewrite (mi_val _ _ I _ _ E), agg_snoc_other; [reflexivity|]. cbn. congruence.
    + intros e' He Hne. rewrite HL. destruct (keq (canon k) (a_class e')); [discriminate|]. destruct (keq k (a_class e')); [discriminate|].
      apply in_app_or in He. destruct He as [He|[<-|[]]]; [exact (mi_has _ _ I _ He Hne)|]. cbn in *. contradiction.
    + intros k' x Hx. destruct (HS _ _ Hx) as [(-> & E & Ek)|(Hne & E & Ec)].
      * exists e. split; [apply in_or_app; right; left; reflexivity|]. cbn. split; [auto|]. rewrite E. exact Ek.
      * destruct (mi_src _ _ I _ _ E) as (e' & ? & ?). eauto.
    + intros e' He. apply in_app_or in He. destruct He as [He|[<-|[]]]; [exact (mi_cls _ _ I _ He)|]. apply canon_idem.
    + destruct (mi_cnt _ _ I) as (ins & G1 & G2 & G3 & G4 & G5 & G6 & G7). exists (canon k :: ins). split.
      { constructor; [|exact G1]. intros Hc. destruct (G4 _ Hc) as (e' & He & E & _). exact (Hnow e' He E). }
      split; [cbn; lia|]. split; [lia|]. split.
      { intros c [<-|Hc]; [exists e; split; [apply in_or_app; right; left; reflexivity|auto]|]. destruct (G4 _ Hc) as (e' & ? & ?). eauto. }
      split.
      { intros k' x Hx. destruct (HS _ _ Hx) as [(-> & E & _)|(Hne & E & _)]; [left; left; auto|]. destruct (G5 _ _ E); [left; right; auto|auto]. }
      split.
      { intros e' He Hne. apply in_app_or in He. destruct He as [He|[<-|[]]]; [|cbn in Hne; contradiction]. destruct (G6 _ He Hne) as [G8 _]. lia. }
      intros c Hc. rewrite HL. destruct (keq (canon k) c) as [<-|E]; [discriminate|]. destruct (keq k c); [discriminate|].
      destruct Hc as [<-|Hc]; [contradiction|]. exact (G7 _ Hc).
  - destruct (lookup overflow (trackers m)) as [id|] eqn:Eo.
    + intros E. injection E as <- <-. split; [|split; [auto|unfold ValueMapModel.upd; destruct (nth_error (heap m) id); auto]].
      apply (minv_upd m w (mk_ap i k overflow v) id overflow I Eo); cbn; auto.
    + intros E. injection E as <- <-. split; [|auto]. set (e := mk_ap i k overflow v). set (id := length (heap m)).
      assert (Hin : forall e', In e' w -> In e' (w ++ [e])) by (intros; apply in_or_app; auto).
      assert (HS : forall k' x, lookup k' (insert overflow id (trackers m)) = Some x -> 
         (x = id /\ k' = overflow) \/ (x <> id /\ lookup k' (trackers m) = Some x /\ canon k' <> overflow)).
      { intros k' x. rewrite lookup_insert. destruct (keq overflow k') as [<-|]; [intros E; injection E as <-; left; auto|].
        intros E. right. pose proof (heap_fresh _ _ I _ _ E). split; [unfold id; lia|]. split; [exact E|].
        intros E2. destruct (mi_ent _ _ I _ _ E) as [_ E3]. congruence. }
      assert (Hnow : forall e', In e' w -> a_class e' <> overflow).
      { intros e' He E. apply (mi_has _ _ I _ He); congruence. }
      split; cbn [trackers heap count flag noattr].
      * apply nodup_insert, I.
      * intros k' x Hx. destruct (HS _ _ Hx) as [(-> & ->)|(Hne & E & Ec)].
        -- split; [exact ovf_ne|]. rewrite canon_ovf, lookup_insert. destruct (keq overflow overflow); [reflexivity|contradiction].
        -- destruct (mi_ent _ _ I _ _ E) as [E1 E2]. split; [exact E1|]. rewrite lookup_insert. destruct (keq overflow (canon k')); [congruence|exact E2].
      * intros k1 k2 x X1 X2. destruct (HS _ _ X1) as [(-> & ->)|(Hne & E & _)]; destruct (HS _ _ X2) as [(E1 & E')|(Hne' & E' & _)]; try congruence.
        exact (mi_inj _ _ I _ _ _ E E').
      * intros k' x Hx. destruct (HS _ _ Hx) as [(-> & ->)|(Hne & E & Ec)].
        -- unfold id. rewrite nth_error_app2, Nat.sub_diag by lia. cbn. rewrite canon_ovf, (agg_snoc_same overflow w e eq_refl), agg_none by exact Hnow. reflexivity.
        -- rewrite nth_error_app1 by (apply (heap_fresh _ _ I _ _ E)). rewrite (mi_val _ _ I _ _ E), agg_snoc_other; [reflexivity|]. cbn. congruence.
      * intros e' He Hne. rewrite lookup_insert. destruct (keq overflow (a_class e')); [discriminate|].
        apply in_app_or in He. destruct He as [He|[<-|[]]]; [exact (mi_has _ _ I _ He Hne)|]. cbn in *. contradiction.
      * intros k' x Hx. destruct (HS _ _ Hx) as [(-> & ->)|(Hne & E & Ec)].
        -- exists e. split; [apply in_or_app; right; left; reflexivity|]. cbn. rewrite canon_ovf. auto.
        -- destruct (mi_src _ _ I _ _ E) as (e' & ? & ?). eauto.
      * intros e' He. apply in_app_or in He. destruct He as [He|[<-|[]]]; [exact (mi_cls _ _ I _ He)|]. exact canon_ovf.
      * destruct (mi_cnt _ _ I) as (ins & G1 & G2 & G3 & G4 & G5 & G6 & G7). exists ins. split; [exact G1|]. split; [exact G2|]. split; [exact G3|]. split.
        { intros c Hc. destruct (G4 _ Hc) as (e' & ? & ?). eauto. }
        split.
        { intros k' x Hx. destruct (HS _ _ Hx) as [(-> & ->)|(Hne & E & _)]; [right; exact canon_ovf|exact (G5 _ _ E)]. }
        split.
        { intros e' He Hne. apply in_app_or in He. destruct He as [He|[<-|[]]]; [exact (G6 _ He Hne)|]. split; [lia|]. cbn. intros X. exact (G7 _ X H2). }
        intros c Hc. rewrite lookup_insert. destruct (keq overflow c); [discriminate|exact (G7 _ Hc)].
Qed.

Lemma minv_noattr m w i v : minv m w -> forall fl na, minv (mk_vm (heap m) (trackers m) (count m) fl na) (w ++ [mk_ap i [] [] v]).
Proof.
  intros I fl na. assert (Hin : forall e', In e' w -> In e' (w ++ [mk_ap i [] [] v])) by (intros; apply in_or_app; auto).
  assert (Hn : canon [] = []) by (apply canon_nil; reflexivity).
  split; cbn [trackers heap count flag noattr]; try apply I.
  - intros k id H. rewrite agg_snoc_other; [exact (mi_val _ _ I _ _ H)|]. cbn. intros E. symmetry in E. apply (proj1 (canon_nil k)) in E. exact (proj1 (mi_ent _ _ I _ _ H) E).
  - intros e He Hne. apply in_app_or in He. destruct He as [He|[<-|[]]]; [exact (mi_has _ _ I _ He Hne)|]. cbn in Hne. contradiction.
  - intros k id H. destruct (mi_src _ _ I _ _ H) as (e & ? & ?). eauto.
  - intros e He. apply in_app_or in He. destruct He as [He|[<-|[]]]; [exact (mi_cls _ _ I _ He)|exact Hn].
  - destruct (mi_cnt _ _ I) as (ins & G1 & G2 & G3 & G4 & G5 & G6 & G7). exists ins. repeat split; auto.
    + intros c Hc. destruct (G4 _ Hc) as (e' & ? & ?). eauto.
    + apply in_app_or in H. destruct H as [H|[<-|[]]]; [exact (proj1 (G6 _ H H0))|cbn in H0; congruence].
    + apply in_app_or in H. destruct H as [H|[<-|[]]]; [exact (proj2 (G6 _ H H0))|cbn in H0; congruence].
Qed.
Lemma minv_same m w fl na : minv m w -> minv (mk_vm (heap m) (trackers m) (count m) fl na) w.
Proof. intros []. split; cbn; assumption. Qed.

(** * Iteration *)
Lemma dedup_in : forall es seen k id, In (k, id) (dedup (KV := KV) seen es) -> In (k, id) es /\ ~ In id seen.
Proof.
  induction es as [|[k0 i0] es IH]; intros seen k id H; [destruct H|]. cbn [dedup] in H. destruct (in_dec Nat.eq_dec i0 seen) as [Hs|Hs].
  - apply IH in H. destruct H. split; [right; assumption|assumption].
  - destruct H as [E|H]; [injection E as <- <-; split; [left; reflexivity|exact Hs]|]. apply IH in H. destruct H as [H1 H2]. split; [right; exact H1|]. intros H3. apply H2. right. exact H3.
Qed.
Lemma dedup_nodup : forall es seen, NoDup (map snd (dedup (KV := KV) seen es)).
Proof.
  induction es as [|[k0 i0] es IH]; intros seen; cbn [dedup]; [constructor|]. destruct (in_dec Nat.eq_dec i0 seen); [apply IH|]. cbn. constructor; [|apply IH].
  rewrite in_map_iff. intros ([k id] & E & H). cbn in E. subst. apply dedup_in in H. destruct H as [_ H]. apply H. left. reflexivity.
Qed.
Lemma dedup_all : forall es seen k id, In (k, id) es -> ~ In id seen -> exists k', In (k', id) (dedup (KV := KV) seen es).
Proof.
  induction es as [|[k0 i0] es IH]; intros seen k id H Hs; [destruct H|]. cbn [dedup]. destruct (in_dec Nat.eq_dec i0 seen) as [H0|H0].
  - destruct H as [E|H]; [injection E as <- <-; contradiction|eauto].
  - destruct (Nat.eq_dec i0 id) as [->|Hne]; [exists k0; left; reflexivity|]. destruct H as [E|H]; [congruence|].
    destruct (IH (i0 :: seen) k id H) as (k' & Hk'); [intros [E|E]; [contradiction|contradiction]|]. exists k'. right. exact Hk'.
Qed.
Lemma nodupb_ok l : nodupb l = true -> NoDup l.
Proof.
  induction l as [|x l IH]; cbn; [constructor|]. intros H. apply andb_true_iff in H. destruct H as [H1 H2]. constructor; [|auto].
  intros Hin. apply negb_true_iff in H1. assert (existsb (Nat.eqb x) l = true) by (apply existsb_exists; exists x; split; [exact Hin|apply Nat.eqb_refl]). congruence.
Qed.
Lemma pick_perm order (m es : tmap (KV := KV)) : pick (KV := KV) order m = Some es -> Permutation es m.
Proof.
  unfold pick. destruct (_ && _) eqn:E; [|discriminate]. intros H. injection H as <-.
  apply andb_true_iff in E. destruct E as [E E3]. apply andb_true_iff in E. destruct E as [E1 E2].
  apply Nat.eqb_eq in E1. apply nodupb_ok in E3. rewrite forallb_forall in E2.
  assert (P : Permutation order (seq 0 (length m))).
  { apply NoDup_Permutation_bis; [exact E3|rewrite seq_length; lia|]. intros i Hi. apply in_seq. specialize (E2 i Hi). apply Nat.ltb_lt in E2. lia. }
  rewrite (Permutation_flat_map _ P). clear. apply Permutation_refl'.
  assert (G : forall (l pre : tmap (KV := KV)), flat_map (fun i => match nth_error (pre ++ l) i with Some e => [e] | None => [] end) (seq (length pre) (length l)) = l).
  { induction l as [|e l IH]; intros pre; [reflexivity|]. cbn [length seq flat_map]. rewrite nth_error_app2, Nat.sub_diag by lia. cbn [nth_error app]. f_equal.
    specialize (IH (pre ++ [e])). rewrite <- app_assoc in IH. cbn [app] in IH. rewrite app_length in IH. cbn in IH. rewrite Nat.add_1_r in IH. exact IH. }
  exact (G m []).
Qed.

Lemma ent_canon_nodup m w (l : tmap) : minv m w -> NoDup (map snd l) -> (forall k id, In (k, id) l -> lookup k (trackers m) = Some id) ->
  NoDup (map (fun e => canon (fst e)) l).
Proof.
  intros I. induction l as [|[k id] l IH]; intros Hn Hl; cbn; [constructor|]. cbn in Hn. inversion Hn as [|? ? H1 H2]; subst. constructor; [|apply IH; [exact H2|intros k' id' H'; apply Hl; right; exact H']].
  rewrite in_map_iff. intros ([k' id'] & E & Hin). cbn in E. apply H1. apply in_map_iff. exists (k', id'). split; [|exact Hin]. cbn.
  pose proof (proj2 (mi_ent _ _ I _ _ (Hl k id (or_introl eq_refl)))) as X1. pose proof (proj2 (mi_ent _ _ I _ _ (Hl k' id' (or_intror Hin)))) as X2. congruence.
Qed.
Lemma ent_bound m w (l : tmap) : minv m w -> NoDup (map snd l) -> (forall k id, In (k, id) l -> lookup k (trackers m) = Some id) ->
  length l <= limit + 1.
Proof.
  intros I Hn Hl. pose proof (ent_canon_nodup _ _ _ I Hn Hl) as X. destruct (mi_cnt _ _ I) as (ins & G1 & G2 & G3 & G4 & G5 & _).
  rewrite <- (map_length (fun e => canon (fst e)) l). transitivity (length (overflow :: ins)); [|cbn; lia].
  apply NoDup_incl_length; [exact X|]. intros c Hc. apply in_map_iff in Hc. destruct Hc as ([k id] & <- & Hin). cbn. destruct (G5 _ _ (Hl _ _ Hin)); auto.
Qed.

(** * What a collection shows *)
Definition pt_ok (h : list applied) (p : point) : Prop :=
  p_from p <= p_upto p <= length h /\ p_val p = agg (canon (p_attrs p)) (window (p_from p) (p_upto p) h).
Definition src_ok (h : list applied) (p : point) : Prop :=
  exists e, In e (window (p_from p) (p_upto p) h) /\ a_class e = canon (p_attrs p) /\ (p_attrs p = canon (p_attrs p) \/ p_attrs p = a_attrs e).
Definition route_ok (w : list applied) : Prop :=
  forall e, In e w -> a_class e <> canon (a_attrs e) ->
  exists cs, NoDup cs /\ limit <= length cs /\ ~ In (canon (a_attrs e)) cs /\ forall c, In c cs -> c <> [] /\ exists e', In e' w /\ a_class e' = c /\ canon (a_attrs e') = c.
Record out_ok (h : list applied) (o : out) : Prop := mk_oo {
  oo_time : o_start o <= o_mapupto o <= o_stop o /\ o_stop o <= length h /\ o_mapfrom o <= o_mapupto o /\ o_nofrom o <= o_start o;
  oo_pts : forall p, In p (o_pts o) -> pt_ok h p /\ o_start o <= p_upto p <= o_stop o /\
    (p_attrs p = [] -> p_from p = o_nofrom o) /\
    (p_attrs p <> [] -> p_from p = o_mapfrom o /\ o_mapupto o <= p_upto p /\ (delta = true -> p_upto p = o_mapupto o) /\ src_ok h p);
  oo_nodup : NoDup (map (fun p => canon (p_attrs p)) (o_pts o));
  oo_all : forall e, In e (window (o_mapfrom o) (o_mapupto o) h) -> a_class e <> [] -> exists p, In p (o_pts o) /\ canon (p_attrs p) = a_class e;
  oo_no : forall e, In e (window (o_nofrom o) (o_start o) h) -> a_class e = [] -> In (a_call e) (o_done o) -> exists p, In p (o_pts o) /\ p_attrs p = [];
  oo_bound : length (o_pts o) <= limit + 2;
  oo_route : route_ok (window (o_mapfrom o) (o_mapupto o) h) }.

Lemma pt_ok_grow h x p : pt_ok h p -> pt_ok (h ++ x) p.
Proof. intros [H1 H2]. split; [rewrite app_length; lia|]. rewrite window_grow by lia. exact H2. Qed.
Lemma src_ok_grow h x p : p_upto p <= length h -> src_ok h p -> src_ok (h ++ x) p.
Proof. intros H1 (e & H2). exists e. rewrite window_grow by lia. exact H2. Qed.
Lemma out_ok_grow h x o : out_ok h o -> out_ok (h ++ x) o.
Proof.
  intros [H1 H2 H3 H4 H5 H6 H7]. split; auto.
  - rewrite app_length. lia.
  - intros p Hp. destruct (H2 p Hp) as (G1 & G2 & G3 & G4). split; [apply pt_ok_grow, G1|]. split; [exact G2|]. split; [exact G3|].
    intros Hn. destruct (G4 Hn) as (G5 & G6 & G7 & G8). repeat split; auto. apply src_ok_grow; [destruct G1; lia|exact G8].
  - rewrite window_grow by lia. exact H4.
  - rewrite window_grow by lia. exact H5.
  - rewrite window_grow by lia. exact H7.
Qed.

Fixpoint tiles {X} (from upto : X -> nat) (x : nat) (l : list X) (y : nat) : Prop :=
  match l with
  | [] => x = y
  | o :: l => from o = x /\ tiles from upto (upto o) l y
  end.
Lemma tiles_snoc {X} (from upto : X -> nat) : forall l x y o, tiles from upto x l y -> from o = y -> tiles from upto x (l ++ [o]) (upto o).
Proof. induction l as [|a l IH]; intros x y o H E; cbn in *; [subst; auto|]. destruct H as [H1 H2]. split; [exact H1|eauto]. Qed.
Definition nopts (l : list point) : list point := List.filter (fun p => match p_attrs p with [] => true | _ => false end) l.

(** * The invariant *)
Definition no_ok (s : vstate) (no : list point) : Prop :=
  (no = [] /\ forall e, In e (skipn (v_nofrom s) (v_hist s)) -> a_class e = [] -> ~ In (a_call e) (v_done s)) \/
  (exists p, no = [p] /\ p_attrs p = [] /\ pt_ok (v_hist s) p /\ p_from p = v_nofrom s /\ v_start s <= p_upto p <= now s).
Definition tp_ok (s : vstate) (e : attrs * nat) (p : point) : Prop :=
  p_attrs p = fst e /\ pt_ok (v_hist s) p /\ src_ok (v_hist s) p /\ p_from p = v_cutmap s /\ v_mapupto s <= p_upto p <= now s.
Definition col_ok (s : vstate) : Prop :=
  match v_pc s with
  | CIdle => v_dest s = []
  | CNo => v_dest s = [] /\ v_nofrom s = v_cutno s
  | CMap => no_ok s (v_dest s)
  | CIter rest => delta = false /\ v_start s <= v_mapupto s <= now s /\
      (forall e, In e (window (v_cutmap s) (v_mapupto s) (v_hist s)) -> a_class e <> [] -> lookup (a_class e) (trackers (v_map s)) <> None) /\
      route_ok (window (v_cutmap s) (v_mapupto s) (v_hist s)) /\
      exists no es dn pts, v_dest s = no ++ pts /\ no_ok s no /\ Permutation es (trackers (v_map s)) /\ dedup [] es = dn ++ rest /\ Forall2 (tp_ok s) dn pts
  end.
Definition call_ok (c : mcall (KV := KV) (V := V)) : Prop :=
  match c_pc c with MNoUpd | MNoFlag => c_attrs c = [] | MRead | MWrite => c_attrs c <> [] | MDone => True end.
Definition has_applied (c : mcall (KV := KV) (V := V)) : bool := match c_pc c with MDone | MNoFlag => true | _ => false end.
Record vinv (s : vstate) : Prop := mk_vi {
  vi_cuts : v_cutno s <= now s /\ v_cutmap s <= now s /\ (delta = false -> v_cutno s = 0 /\ v_cutmap s = 0);
  vi_calls : forall i c, nth_error (v_calls s) i = Some c -> call_ok c /\ (has_applied c = true -> In i (map (@a_call KV V) (v_hist s)));
  vi_hist : forall e, In e (v_hist s) -> exists c, nth_error (v_calls s) (a_call e) = Some c /\ c_attrs c = a_attrs e /\ c_val c = a_val e /\ has_applied c = true;
  vi_nodup : NoDup (map (@a_call KV V) (v_hist s));
  vi_cls : forall e, In e (v_hist s) -> (a_attrs e = [] /\ a_class e = []) \/ (a_attrs e <> [] /\ (a_class e = canon (a_attrs e) \/ a_class e = overflow));
  vi_map : minv (v_map s) (skipn (v_cutmap s) (v_hist s));
  vi_no : noattr (v_map s) = agg [] (skipn (v_cutno s) (v_hist s));
  vi_flag : forall e, In e (skipn (v_cutno s) (v_hist s)) -> a_class e = [] ->
     flag (v_map s) = true \/ (delta = true /\ v_pc s = CNo) \/ exists c, nth_error (v_calls s) (a_call e) = Some c /\ c_pc c = MNoFlag;
  vi_done : forall i, In i (v_done s) -> exists c, nth_error (v_calls s) i = Some c /\ c_pc c = MDone;
  vi_time : v_pc s <> CIdle -> v_start s <= now s /\ v_nofrom s <= v_start s;
  vi_col : col_ok s;
  vi_outs : Forall (out_ok (v_hist s)) (v_outs s);
  vi_tmap : delta = true -> tiles (@o_mapfrom KV A) (@o_mapupto KV A) 0 (v_outs s) (v_cutmap s);
  vi_tno : delta = true -> tiles (@p_from KV A) (@p_upto KV A) 0 (nopts (flat_map (@o_pts KV A) (v_outs s) ++ v_dest s)) (v_cutno s) }.

Lemma vinv_init : vinv v_init.
Proof.
  split; cbn; auto; try (intros e Hd; destruct Hd; fail); try (intros Hd; discriminate Hd).
  - intros [|i] c H; discriminate H.
  - constructor.
  - apply minv_nil.
Qed.

(** One more measurement in the history. *)
Lemma col_grow s e m calls : col_ok s -> ~ In (a_call e) (v_done s) -> trackers (v_map s) = trackers m \/ locked s = false ->
  v_nofrom s <= now s \/ v_pc s = CIdle ->
  col_ok (mk_v m calls (v_pc s) (v_dest s) (v_start s) (v_mapupto s) (v_nofrom s) (v_done s) (v_hist s ++ [e]) (v_cutno s) (v_cutmap s) (v_outs s)).
Proof.
  intros H Hd Ht Hnf.
  assert (Hno : forall no, v_nofrom s <= now s -> no_ok s no -> no_ok (mk_v m calls (v_pc s) (v_dest s) (v_start s) (v_mapupto s) (v_nofrom s) (v_done s) (v_hist s ++ [e]) (v_cutno s) (v_cutmap s) (v_outs s)) no).
  { intros no Hle [[-> Hn]|(p & -> & H1 & H2 & H3 & H4)]; unfold no_ok; cbn [v_nofrom v_hist v_done v_start].
    - left. split; [reflexivity|]. intros e' He Hc. rewrite skipn_snoc in He by exact Hle. apply in_app_or in He. destruct He as [He|[<-|[]]]; [eauto|exact Hd].
    - right. exists p. repeat split; try apply (pt_ok_grow _ [e] _ H2); auto; try lia; unfold now in *; cbn [v_hist]; rewrite app_length; cbn; lia. }
  unfold col_ok in *. cbn [v_pc v_dest v_map v_hist v_cutmap v_mapupto v_start v_nofrom v_cutno]. destruct (v_pc s) as [| | |rest] eqn:E.
  - exact H.
  - exact H.
  - destruct Hnf as [Hnf|Hnf]; [|discriminate]. apply Hno; assumption.
  - destruct Hnf as [Hnf|Hnf]; [|discriminate]. destruct Ht as [Ht|Ht]; [|unfold locked in Ht; rewrite E in Ht; discriminate]. rewrite <- Ht.
    destruct H as (G1 & G2 & G3 & G4 & no & es & dn & pts & G5 & G6 & G7 & G8 & G9). split; [exact G1|].
    unfold now in *. cbn [v_hist]. rewrite app_length. split; [lia|]. rewrite !window_grow by lia. split; [exact G3|]. split; [exact G4|].
    exists no, es, dn, pts. split; [exact G5|]. split; [apply Hno; assumption|]. split; [exact G7|]. split; [exact G8|].
    clear -G9. induction G9 as [|x p dn pts H1 H2 IH]; constructor; auto. destruct H1 as (X1 & X2 & X3 & X4 & X5). unfold tp_ok, now in *. cbn [v_hist v_cutmap v_mapupto].
    rewrite app_length. split; [exact X1|]. split; [apply pt_ok_grow, X2|]. split; [apply src_ok_grow; [destruct X2; lia|exact X3]|]. split; [exact X4|lia].
Qed.

(** A step changing only one call's program counter, possibly adding to the
    history. *)
Lemma in_map_call (h : list applied) i : In i (map (@a_call KV V) h) <-> exists e, In e h /\ a_call e = i.
Proof. rewrite in_map_iff. split; intros (e & H); exists e; tauto. Qed.

Lemma vinv_apply s i c m cls pc' : vinv s -> nth_error (v_calls s) i = Some c -> has_applied c = false ->
  (pc' = MDone \/ (pc' = MNoFlag /\ c_attrs c = [])) ->
  ((c_attrs c = [] /\ cls = []) \/ (c_attrs c <> [] /\ (cls = canon (c_attrs c) \/ cls = overflow))) ->
  minv m (skipn (v_cutmap s) (v_hist s) ++ [mk_ap i (c_attrs c) cls (c_val c)]) ->
  noattr m = (if keq cls [] then update (noattr (v_map s)) (c_val c) else noattr (v_map s)) -> flag m = flag (v_map s) ->
  (cls = [] -> pc' = MNoFlag) ->
  trackers (v_map s) = trackers m \/ locked s = false ->
  vinv (set_call i (goto pc' c) (apply i c m cls s)).
Proof.
  intros I Hi Ha Hpc Hcls Hm Hno Hfl Hnf Ht. set (e := mk_ap i (c_attrs c) cls (c_val c)) in *.
  assert (Hdone : ~ In i (v_done s)).
  { intros Hin. destruct (vi_done _ I _ Hin) as (c' & H1 & H2). rewrite Hi in H1. injection H1 as <-. unfold has_applied in Ha. rewrite H2 in Ha. discriminate. }
  assert (Hnew : ~ In i (map (@a_call KV V) (v_hist s))).
  { intros Hin. apply in_map_call in Hin. destruct Hin as (e' & He & <-). destruct (vi_hist _ I _ He) as (c' & H1 & _ & _ & H2). congruence. }
  assert (Hpa : has_applied (goto pc' c) = true) by (destruct Hpc as [->|[-> _]]; reflexivity).
  destruct (vi_cuts _ I) as (Hc1 & Hc2 & Hc3). unfold now in Hc1, Hc2.
  assert (Hlen : length (v_hist s ++ [e]) = S (length (v_hist s))) by (rewrite app_length; cbn; lia).
  unfold set_call, apply. cbn [v_map v_calls v_pc v_dest v_start v_mapupto v_nofrom v_done v_hist v_cutno v_cutmap v_outs]. fold e.
  split; cbn [v_map v_calls v_pc v_dest v_start v_mapupto v_nofrom v_done v_hist v_cutno v_cutmap v_outs now]; unfold now; cbn [v_hist].
  - rewrite Hlen. repeat split; try lia; apply Hc3; assumption.
  - intros j c' Hj. rewrite nth_set_nth in Hj. rewrite map_app, in_app_iff. cbn [map In a_call].
    destruct (Nat.eqb_spec i j) as [<-|Hne].
    + rewrite Hi in Hj. injection Hj as <-. split; [|intros _; right; left; reflexivity]. unfold call_ok. cbn. destruct Hpc as [->|[-> X]]; auto.
    + destruct (vi_calls _ I _ _ Hj) as [H1 H2]. auto.
  - intros e' He. apply in_app_or in He. destruct He as [He|[<-|[]]].
    + destruct (vi_hist _ I _ He) as (c' & H1 & H2). exists c'. rewrite nth_set_nth. destruct (Nat.eqb_spec i (a_call e')) as [E|]; [|auto].
      exfalso. apply Hnew. apply in_map_call. eauto.
    + cbn. exists (goto pc' c). rewrite nth_set_nth, Nat.eqb_refl, Hi. auto.
  - rewrite map_app. cbn. pose proof (Add_app i (map (@a_call KV V) (v_hist s)) []) as X. rewrite app_nil_r in X. apply (proj2 (NoDup_Add X)). split; [apply I|exact Hnew].
  - intros e' He. apply in_app_or in He. destruct He as [He|[<-|[]]]; [exact (vi_cls _ I _ He)|exact Hcls].
  - rewrite skipn_snoc by lia. exact Hm.
  - rewrite skipn_snoc by lia. rewrite Hno, (vi_no _ I). destruct (keq cls []) as [->|Hne]; [rewrite agg_snoc_same by reflexivity; reflexivity|rewrite agg_snoc_other by exact Hne; reflexivity].
  - rewrite skipn_snoc by lia. intros e' He Hc. rewrite Hfl. apply in_app_or in He. destruct He as [He|[<-|[]]].
    + destruct (vi_flag _ I _ He Hc) as [H|[H|(c' & H1 & H2)]]; auto. right. right. exists c'. rewrite nth_set_nth. destruct (Nat.eqb_spec i (a_call e')) as [E|]; [|auto].
      exfalso. apply Hnew. apply in_map_call. exists e'. split; [apply (skipn_incl (v_cutno s)), He|auto].
    + right. right. exists (goto pc' c). change (a_call e) with i. rewrite nth_set_nth, Nat.eqb_refl, Hi. split; [reflexivity|]. cbn. apply Hnf. exact Hc.
  - intros j Hj. destruct (vi_done _ I _ Hj) as (c' & H1 & H2). exists c'. rewrite nth_set_nth. destruct (Nat.eqb_spec i j) as [<-|]; [contradiction|auto].
  - intros Hp. destruct (vi_time _ I Hp) as [X1 X2]. unfold now in X1. rewrite Hlen. lia.
  - apply col_grow; auto; [apply I|]. destruct (v_pc s) eqn:E; auto; left; destruct (vi_time _ I) as [X1 X2]; try (rewrite E; discriminate); unfold now in *; lia.
  - eapply Forall_impl; [|apply (vi_outs _ I)]. intros o. apply out_ok_grow.
  - apply I.
  - apply I.
Qed.

Lemma vinv_pc s i c pc' m : vinv s -> nth_error (v_calls s) i = Some c -> has_applied c = has_applied (goto pc' c) ->
  call_ok (goto pc' c) -> c_pc c <> MDone ->
  heap m = heap (v_map s) -> trackers m = trackers (v_map s) -> count m = count (v_map s) -> noattr m = noattr (v_map s) ->
  (flag (v_map s) = true -> flag m = true) -> (c_pc c = MNoFlag -> flag m = true) ->
  vinv (set_call i (goto pc' c) (mk_v m (v_calls s) (v_pc s) (v_dest s) (v_start s) (v_mapupto s) (v_nofrom s) (v_done s) (v_hist s) (v_cutno s) (v_cutmap s) (v_outs s))).
Proof.
  intros I Hi Ha Hok Hnd E1 E2 E3 E4 Hf Hf'. unfold set_call. cbn [v_map v_calls v_pc v_dest v_start v_mapupto v_nofrom v_done v_hist v_cutno v_cutmap v_outs].
  assert (Hm : minv m (skipn (v_cutmap s) (v_hist s))).
  { destruct m as [hp tr cn fl na]. cbn in E1, E2, E3. subst. apply minv_same, I. }
  split; cbn [v_map v_calls v_pc v_dest v_start v_mapupto v_nofrom v_done v_hist v_cutno v_cutmap v_outs]; unfold now; cbn [v_hist]; try apply I; auto.
  - intros j c' Hj. rewrite nth_set_nth in Hj. destruct (Nat.eqb_spec i j) as [<-|]; [|exact (vi_calls _ I _ _ Hj)]. rewrite Hi in Hj. injection Hj as <-.
    split; [exact Hok|]. rewrite <- Ha. exact (proj2 (vi_calls _ I _ _ Hi)).
  - intros e He. destruct (vi_hist _ I _ He) as (c' & H1 & H2 & H3 & H4). rewrite nth_set_nth. destruct (Nat.eqb_spec i (a_call e)) as [E|]; [|eauto].
    rewrite <- E, Hi in H1. injection H1 as <-. rewrite <- E, Hi. exists (goto pc' c). cbn. rewrite <- Ha. auto.
  - rewrite E4. apply I.
  - intros e He Hc. destruct (vi_flag _ I _ He Hc) as [H|[H|(c' & H1 & H2)]]; auto. rewrite nth_set_nth. destruct (Nat.eqb_spec i (a_call e)) as [E|]; [|eauto].
    rewrite <- E, Hi in H1. injection H1 as <-. auto.
  - intros j Hj. destruct (vi_done _ I _ Hj) as (c' & H1 & H2). exists c'. rewrite nth_set_nth. destruct (Nat.eqb_spec i j) as [<-|]; [congruence|auto].
  - pose proof (vi_col _ I) as H. unfold col_ok in *. cbn [v_pc v_dest v_map v_hist v_cutmap v_mapupto v_start v_nofrom v_cutno]. destruct (v_pc s); try exact H. rewrite E2. exact H.
Qed.

Lemma no_ok_nopts s no : no_ok s no -> nopts no = no.
Proof. intros [[-> _]|(p & -> & H & _)]; [reflexivity|]. unfold nopts. cbn. rewrite H. reflexivity. Qed.
Lemma tp_attrs s dn pts : (forall k id, In (k, id) dn -> k <> []) -> Forall2 (tp_ok s) dn pts -> nopts pts = [].
Proof.
  intros Hk H. induction H as [|[k id] p dn pts H1 H2 IH]; [reflexivity|]. unfold nopts in *. cbn. rewrite (proj1 H1). cbn.
  destruct k; [exfalso; exact (Hk _ id (or_introl eq_refl) eq_refl)|]. apply IH. intros k' id' Hin. apply Hk with id'. right. exact Hin.
Qed.
Lemma nopts_app l l' : nopts (l ++ l') = nopts l ++ nopts l'.
Proof. apply filter_app. Qed.

(** The end of a collection. *)
Lemma finish_out s no dn pts w : minv (v_map s) w ->
  v_start s <= v_mapupto s <= now s -> v_cutmap s <= v_mapupto s -> v_nofrom s <= v_start s ->
  (delta = true -> v_mapupto s = now s) ->
  no_ok s no -> NoDup (map snd dn) -> (forall k id, In (k, id) dn -> lookup k (trackers (v_map s)) = Some id) ->
  (forall k id, lookup k (trackers (v_map s)) = Some id -> exists k', In (k', id) dn) ->
  (forall e, In e (window (v_cutmap s) (v_mapupto s) (v_hist s)) -> a_class e <> [] -> lookup (a_class e) (trackers (v_map s)) <> None) ->
  (forall e, In e (v_hist s) -> canon (a_class e) = a_class e) ->
  route_ok (window (v_cutmap s) (v_mapupto s) (v_hist s)) ->
  Forall2 (tp_ok s) dn pts ->
  out_ok (v_hist s) (mk_out (v_start s) (now s) (v_cutmap s) (v_mapupto s) (v_nofrom s) (v_done s) (no ++ pts)).
Proof.
  intros I Ht Hcm Hnf Hdl Hno Hnd Hent Hall Hhas Hcl Hr HF.
  assert (Hne : forall k id, In (k, id) dn -> k <> []) by (intros k id Hin; exact (proj1 (mi_ent _ _ I _ _ (Hent _ _ Hin)))).
  assert (Hpts : forall p, In p pts -> exists e, In e dn /\ tp_ok s e p).
  { clear -HF. induction HF as [|x p dn pts H1 H2 IH]; intros q Hq; [destruct Hq|]. destruct Hq as [<-|Hq]; [exists x; split; [left; reflexivity|exact H1]|].
    destruct (IH _ Hq) as (e & He & X). exists e. split; [right; exact He|exact X]. }
  assert (Hback : forall e, In e dn -> exists p, In p pts /\ tp_ok s e p).
  { clear -HF. induction HF as [|x p dn pts H1 H2 IH]; intros q Hq; [destruct Hq|]. destruct Hq as [<-|Hq]; [exists p; split; [left; reflexivity|exact H1]|].
    destruct (IH _ Hq) as (e & He & X). exists e. split; [right; exact He|exact X]. }
  assert (Hmap : map (fun p => canon (p_attrs p)) pts = map (fun e => canon (fst e)) dn).
  { clear -HF. induction HF as [|x p dn pts H1 H2 IH]; [reflexivity|]. cbn. rewrite (proj1 H1), IH. reflexivity. }
  split; cbn [o_start o_stop o_mapfrom o_mapupto o_nofrom o_done o_pts].
  - unfold now in *. lia.
  - intros p Hp. apply in_app_or in Hp. destruct Hp as [Hp|Hp].
    + destruct Hno as [[-> _]|(p' & -> & H1 & H2 & H3 & H4)]; [destruct Hp|]. destruct Hp as [<-|[]]. split; [exact H2|]. split; [exact H4|]. split; [auto|contradiction].
    + destruct (Hpts p Hp) as ([k id] & Hin & X1 & X2 & X3 & X4 & X5). cbn in X1. split; [exact X2|]. split; [lia|].
      split; [intros E; exfalso; apply (Hne _ _ Hin); congruence|]. intros _. repeat split; auto; try lia. intros Hd. specialize (Hdl Hd). destruct X2. unfold now in *. lia.
  - rewrite map_app, Hmap. pose proof (ent_canon_nodup _ _ _ I Hnd Hent) as X. destruct Hno as [[-> _]|(p' & -> & H1 & _)]; [exact X|]. cbn [map app]. constructor; [|exact X].
    rewrite H1. rewrite (proj2 (canon_nil []) eq_refl). rewrite in_map_iff. intros ([k id] & E & Hin). cbn in E. apply (proj1 (canon_nil k)) in E. exact (Hne _ _ Hin E).
  - intros e He Hc. specialize (Hhas e He Hc). destruct (lookup (a_class e) (trackers (v_map s))) as [id|] eqn:E; [|contradiction].
    destruct (Hall _ _ E) as (k' & Hin). destruct (Hback _ Hin) as (p & Hp & X). exists p. split; [apply in_or_app; auto|]. rewrite (proj1 X). cbn.
    rewrite <- (mi_inj _ _ I _ _ _ E (Hent _ _ Hin)). apply Hcl. apply (skipn_incl (v_cutmap s)). apply (window_incl _ (v_mapupto s)), He.
  - intros e He Hc Hin. destruct Hno as [[-> Hn]|(p' & -> & H1 & _)]; [|exists p'; split; [left; reflexivity|exact H1]].
    exfalso. exact (Hn e (window_incl _ _ _ _ He) Hc Hin).
  - rewrite app_length. assert (length pts = length dn) as ->.
    { clear -HF. induction HF as [|x p dn pts H1 H2 IH]; cbn; congruence. }
    pose proof (ent_bound _ _ _ I Hnd Hent). destruct Hno as [[-> _]|(p' & -> & _)]; cbn; lia.
  - exact Hr.
Qed.

Lemma minv_route m w : minv m w -> route_ok w.
Proof. intros I e He Hc. destruct (mi_cnt _ _ I) as (ins & G1 & G2 & G3 & G4 & G5 & G6 & G7). exists ins. split; [exact G1|]. destruct (G6 _ He Hc) as [G8 G9]. split; [rewrite G2; exact G8|]. split; [exact G9|]. intros c Hin. split; [|exact (G4 c Hin)].
  specialize (G7 c Hin). destruct (lookup c (trackers m)) as [id|] eqn:El; [exact (proj1 (mi_ent _ _ I _ _ El))|congruence]. Qed.

Lemma done_calls_in : forall l k i, In i (done_calls (KV := KV) (V := V) k l) -> exists c, nth_error l (i - k) = Some c /\ c_pc c = MDone /\ k <= i.
Proof.
  induction l as [|c l IH]; intros k i H; [destruct H|]. cbn [done_calls] in H. apply in_app_or in H. destruct H as [H|H].
  - unfold is_done in H. destruct (c_pc c) eqn:E; try destruct H as []. subst. exists c. rewrite Nat.sub_diag. auto.
    contradiction.
  - destruct (IH _ _ H) as (c' & H1 & H2 & H3). exists c'. replace (i - k) with (S (i - S k)) by lia. cbn. repeat split; auto. lia.
Qed.
Lemma done_calls_all : forall l k i c, nth_error l i = Some c -> c_pc c = MDone -> In (k + i) (done_calls (KV := KV) (V := V) k l).
Proof.
  induction l as [|c0 l IH]; intros k [|i] c H E; cbn in H; try discriminate.
  - injection H as ->. cbn. unfold is_done. rewrite E. left. lia.
  - cbn [done_calls]. apply in_or_app. right. replace (k + S i) with (S k + i) by lia. eapply IH; eauto.
Qed.

Lemma tracker_points s w (l : tmap) : minv (v_map s) w -> w = skipn (v_cutmap s) (v_hist s) -> v_cutmap s <= now s -> v_mapupto s <= now s ->
  (forall k id, In (k, id) l -> lookup k (trackers (v_map s)) = Some id) -> Forall2 (tp_ok s) l (flat_map (tracker_point s) l).
Proof.
  intros I Hw Hc Hm. induction l as [|[k id] l IH]; intros Hl; [constructor|]. cbn [flat_map]. pose proof (Hl k id (or_introl eq_refl)) as Hk.
  unfold tracker_point at 1. cbn [fst snd]. rewrite (mi_val _ _ I _ _ Hk). cbn [app]. constructor; [|apply IH; intros k' id' Hin; apply Hl; right; exact Hin].
  unfold tp_ok, pt_ok, src_ok. cbn [p_attrs p_from p_upto p_val fst]. unfold now in *. rewrite window_all, <- Hw. repeat split; auto; try lia.
  destruct (mi_src _ _ I _ _ Hk) as (e & H). exists e. exact H.
Qed.

Lemma vinv_step s a s' : vinv s -> vstep s a = Some s' -> vinv s'.
Proof.
  intros I H. destruct a as [k v|i| |order]; cbn [ValueMapModel.vstep] in H.
  - (* a new call *)
    injection H as <-. set (c := mk_call _ _ _).
    assert (Hc : call_ok c /\ has_applied c = false) by (unfold c, call_ok, has_applied; cbn; destruct (filtered keep k); cbn; split; auto; discriminate).
    split; cbn [v_map v_calls v_pc v_dest v_start v_mapupto v_nofrom v_done v_hist v_cutno v_cutmap v_outs]; unfold now; cbn [v_hist]; try apply I.
    + intros j c' Hj. destruct (nth_snoc _ _ _ _ Hj) as [Hj'|[-> ->]]; [exact (vi_calls _ I _ _ Hj')|]. destruct Hc as [H1 H2]. split; [exact H1|congruence].
    + intros e He. destruct (vi_hist _ I _ He) as (c' & H1 & H2). exists c'. split; [apply nth_snoc_old, H1|exact H2].
    + intros e He Hcl. destruct (vi_flag _ I _ He Hcl) as [X|[X|(c' & H1 & H2)]]; auto. right; right. exists c'. split; [apply nth_snoc_old, H1|exact H2].
    + intros j Hj. destruct (vi_done _ I _ Hj) as (c' & H1 & H2). exists c'. split; [apply nth_snoc_old, H1|exact H2].
  - (* a measuring thread *)
    unfold mstep in H. destruct (nth_error (v_calls s) i) as [c|] eqn:Hi; [|discriminate]. destruct (vi_calls _ I _ _ Hi) as [Hok _]. unfold call_ok in Hok.
    destruct (c_pc c) eqn:Epc.
    + injection H as <-. apply vinv_apply; auto; cbn [trackers heap noattr flag]; unfold has_applied; rewrite ?Epc; auto.
      * rewrite Hok. apply minv_noattr, I.
      * destruct (keq [] []); [reflexivity|contradiction].
    + injection H as <-. apply vinv_pc; auto; unfold has_applied, call_ok; cbn; rewrite ?Epc; auto; discriminate.
    + destruct (find (c_attrs c) (v_map s)) as [id|] eqn:Ef.
      * injection H as <-. destruct (find_lookup _ _ _ _ (vi_map _ I) Ef) as (k' & H1 & H2).
        apply vinv_apply; auto; unfold has_applied; rewrite ?Epc; auto.
        -- apply (minv_upd _ _ (mk_ap i (c_attrs c) (canon (c_attrs c)) (c_val c)) id k' (vi_map _ I) H1); cbn; congruence.
        -- destruct (keq (canon (c_attrs c)) []) as [E|]; [apply (proj1 (canon_nil _)) in E; contradiction|]. unfold ValueMapModel.upd. destruct (nth_error (heap (v_map s)) id); reflexivity.
        -- unfold ValueMapModel.upd. destruct (nth_error (heap (v_map s)) id); reflexivity.
        -- intros E. apply (proj1 (canon_nil _)) in E; contradiction.
        -- left. unfold ValueMapModel.upd. destruct (nth_error (heap (v_map s)) id); reflexivity.
      * injection H as <-. assert (E : set_call i (goto MWrite c) s = set_call i (goto MWrite c) (mk_v (v_map s) (v_calls s) (v_pc s) (v_dest s) (v_start s) (v_mapupto s) (v_nofrom s) (v_done s) (v_hist s) (v_cutno s) (v_cutmap s) (v_outs s))) by reflexivity.
        rewrite E. apply vinv_pc; auto; unfold has_applied, call_ok; cbn; rewrite ?Epc; auto; discriminate.
    + destruct (locked s) eqn:El; [discriminate|]. destruct (write (c_attrs c) (c_val c) (v_map s)) as [m' cls] eqn:Ew. injection H as <-.
      destruct (write_minv _ _ _ _ _ _ i (vi_map _ I) Hok Ew) as (Hm & Hcl & Hfl & Hna).
      assert (cls <> []) by (destruct Hcl as [-> | ->]; [intros E; apply (proj1 (canon_nil _)) in E; contradiction|exact ovf_ne]).
      apply vinv_apply; auto; unfold has_applied; rewrite ?Epc; auto.
      * destruct (keq cls []); [contradiction|exact Hna].
      * contradiction.
    + discriminate.
  - (* begin to collect *)
    destruct (v_pc s) eqn:Epc; try discriminate. injection H as <-. pose proof (vi_col _ I) as Hcol. unfold col_ok in Hcol. rewrite Epc in Hcol.
    destruct (vi_cuts _ I) as (Hc1 & Hc2 & Hc3). unfold now in Hc1, Hc2.
    assert (Hdn : forall j, In j (done_calls 0 (v_calls s)) -> exists c, nth_error (v_calls s) j = Some c /\ c_pc c = MDone).
    { intros j Hj. destruct (done_calls_in _ _ _ Hj) as (c & H1 & H2 & _). rewrite Nat.sub_0_r in H1. eauto. }
    split; cbn [v_map v_calls v_pc v_dest v_start v_mapupto v_nofrom v_done v_hist v_cutno v_cutmap v_outs]; unfold now; cbn [v_hist]; try apply I; auto.
    + destruct delta; [apply minv_same|]; apply I.
    + destruct delta; apply I.
    + intros e He Hc. destruct (vi_flag _ I _ He Hc) as [X|[[_ X]|X]]; [|congruence|auto]. rewrite X. destruct delta; auto.
    + unfold col_ok. cbn [v_pc v_dest v_map v_hist v_cutmap v_mapupto v_start v_nofrom v_cutno]. destruct (flag (v_map s)) eqn:Ef; [auto|].
      left. split; [reflexivity|]. cbn [v_nofrom v_hist v_done]. intros e He Hc Hin. destruct (Hdn _ Hin) as (c & H1 & H2).
      destruct (vi_flag _ I _ He Hc) as [X|[[_ X]|(c' & X1 & X2)]]; congruence.
    + intros Hd. pose proof (vi_tno _ I Hd) as X. rewrite Hcol in X. exact X.
  - (* the collector *)
    destruct (vi_cuts _ I) as (Hc1 & Hc2 & Hc3). unfold now in Hc1, Hc2. pose proof (vi_col _ I) as Hcol. unfold col_ok in Hcol.
    unfold cstep in H. destruct (v_pc s) as [| | |rest] eqn:Epc; [discriminate| | |].
    + (* no attributes *)
      injection H as <-. destruct Hcol as [Hd Hnf]. destruct (vi_time _ I) as [Ht1 Ht2]; [rewrite Epc; discriminate|]. unfold now in Ht1.
      split; cbn [v_map v_calls v_pc v_dest v_start v_mapupto v_nofrom v_done v_hist v_cutno v_cutmap v_outs]; unfold now; cbn [v_hist]; try apply I; auto.
      * split; [destruct delta; lia|split; [lia|]]. intros Hd0. rewrite Hd0. apply Hc3, Hd0.
      * destruct delta; [apply minv_same|]; apply I.
      * destruct delta; [cbn; rewrite skipn_all; reflexivity|apply I].
      * intros e He Hc. destruct delta eqn:Ed; [rewrite skipn_all in He; destruct He|]. destruct (vi_flag _ I _ He Hc) as [X|[[X _]|X]]; auto. congruence.
      * unfold col_ok. cbn [v_pc v_dest v_map v_hist v_cutmap v_mapupto v_start v_nofrom v_cutno]. rewrite Hd. right. eexists. split; [reflexivity|].
        cbn [p_attrs p_from p_upto]. unfold pt_ok. cbn [p_attrs p_from p_upto p_val v_hist v_nofrom v_start]. unfold now. cbn [v_hist].
        rewrite window_all. rewrite (proj2 (canon_nil []) eq_refl). repeat split; auto; try lia. apply I.
      * intros Hdl. rewrite Hdl. rewrite app_assoc, nopts_app. cbn [nopts List.filter p_attrs].
        apply (tiles_snoc (@p_from KV A) (@p_upto KV A) _ _ (v_cutno s) (mk_pt [] (noattr (v_map s)) (v_cutno s) (length (v_hist s)))); [exact (vi_tno _ I Hdl)|reflexivity].
    + (* the map *)
      destruct (vi_time _ I) as [Ht1 Ht2]; [rewrite Epc; discriminate|]. unfold now in Ht1.
      destruct (pick order (trackers (v_map s))) as [es|] eqn:Ep; [|discriminate]. apply pick_perm in Ep.
      assert (Hent : forall k id, In (k, id) (dedup [] es) -> lookup k (trackers (v_map s)) = Some id).
      { intros k id Hin. apply dedup_in in Hin. apply lookup_in; [apply I|]. apply (Permutation_in _ Ep), Hin. }
      assert (Hall : forall k id, lookup k (trackers (v_map s)) = Some id -> exists k', In (k', id) (dedup [] es)).
      { intros k id Hk. apply (dedup_all es [] k id); [|intros []]. apply (Permutation_in _ (Permutation_sym Ep)). apply lookup_in; [apply I|exact Hk]. }
      destruct delta eqn:Ed.
      * injection H as <-. unfold finish.
        pose (s1 := mk_v (v_map s) (v_calls s) CMap (v_dest s) (v_start s) (now s) (v_nofrom s) (v_done s) (v_hist s) (v_cutno s) (v_cutmap s) (v_outs s)).
        assert (HO : out_ok (v_hist s1) (mk_out (v_start s1) (now s1) (v_cutmap s1) (v_mapupto s1) (v_nofrom s1) (v_done s1) (v_dest s ++ flat_map (tracker_point s) (dedup [] es)))).
        { apply (finish_out s1 (v_dest s) (dedup [] es) _ (skipn (v_cutmap s) (v_hist s))); unfold s1; cbn [v_map v_calls v_pc v_dest v_start v_mapupto v_nofrom v_done v_hist v_cutno v_cutmap v_outs]; unfold now; cbn [v_hist]; auto; try apply I; try lia.
          - apply dedup_nodup.
          - rewrite window_all. intros e He Hc. exact (mi_has _ _ (vi_map _ I) _ He Hc).
          - intros e He. destruct (vi_cls _ I _ He) as [[_ ->]|[_ [-> | ->]]]; [apply canon_nil; reflexivity|apply canon_idem|exact canon_ovf].
          - rewrite window_all. exact (minv_route _ _ (vi_map _ I)).
          - apply (tracker_points s1 (skipn (v_cutmap s) (v_hist s))); unfold s1; cbn [v_map v_calls v_pc v_dest v_start v_mapupto v_nofrom v_done v_hist v_cutno v_cutmap v_outs]; unfold now; cbn [v_hist]; auto; try apply I. }
        split; cbn [v_map v_calls v_pc v_dest v_start v_mapupto v_nofrom v_done v_hist v_cutno v_cutmap v_outs]; unfold now; cbn [v_hist]; try apply I; auto.
        -- split; [lia|split; [lia|intros Hx; congruence]].
        -- rewrite skipn_all. apply minv_nil.
        -- intros e He Hc. destruct (vi_flag _ I _ He Hc) as [X|[[_ X]|X]]; auto. congruence.
        -- reflexivity.
        -- apply Forall_app. split; [apply I|constructor; [exact HO|constructor]].
        -- intros _. apply (tiles_snoc (@o_mapfrom KV A) (@o_mapupto KV A) _ _ (v_cutmap s) (mk_out (v_start s) (now s) (v_cutmap s) (length (v_hist s)) (v_nofrom s) (v_done s) (v_dest s ++ flat_map (tracker_point s) (dedup [] es)))); [apply (vi_tmap _ I); exact Ed|reflexivity].
        -- intros _. rewrite app_nil_r, flat_map_app. cbn [flat_map o_pts]. rewrite app_nil_r, app_assoc, nopts_app.
           rewrite (tp_attrs s1 (dedup [] es) (flat_map (tracker_point s) (dedup [] es))); [rewrite app_nil_r; apply (vi_tno _ I); exact Ed| |].
           { intros k id Hin. exact (proj1 (mi_ent _ _ (vi_map _ I) _ _ (Hent _ _ Hin))). }
           apply (tracker_points s1 (skipn (v_cutmap s) (v_hist s))); unfold s1; cbn [v_map v_calls v_pc v_dest v_start v_mapupto v_nofrom v_done v_hist v_cutno v_cutmap v_outs]; unfold now; cbn [v_hist]; auto; try apply I.
      * injection H as <-. destruct (Hc3 eq_refl) as [Hz1 Hz2].
        split; cbn [v_map v_calls v_pc v_dest v_start v_mapupto v_nofrom v_done v_hist v_cutno v_cutmap v_outs]; unfold now; cbn [v_hist]; try apply I; auto.
        -- intros e He Hc. destruct (vi_flag _ I _ He Hc) as [X|[[_ X]|X]]; auto. congruence.
        -- unfold col_ok. cbn [v_pc v_dest v_map v_hist v_cutmap v_mapupto v_start v_nofrom v_cutno]. unfold now. cbn [v_hist]. split; [exact Ed|]. split; [lia|]. rewrite window_all.
           split; [intros e He Hc; exact (mi_has _ _ (vi_map _ I) _ He Hc)|]. split; [exact (minv_route _ _ (vi_map _ I))|].
           exists (v_dest s), es, [], []. rewrite app_nil_r. repeat split; auto.
    + destruct (vi_time _ I) as [Ht1 Ht2]; [rewrite Epc; discriminate|]. unfold now in Ht1.
      destruct Hcol as (Ed & Hmu & Hhas & Hr & no & es & dn & pts & E1 & E2 & E3 & E4 & E5). destruct (Hc3 Ed) as [Hz1 Hz2].
      assert (Hent : forall k id, In (k, id) (dedup [] es) -> lookup k (trackers (v_map s)) = Some id).
      { intros k id Hin. apply dedup_in in Hin. apply lookup_in; [apply I|]. apply (Permutation_in _ E3), Hin. }
      assert (Hall : forall k id, lookup k (trackers (v_map s)) = Some id -> exists k', In (k', id) (dedup [] es)).
      { intros k id Hk. apply (dedup_all es [] k id); [|intros []]. apply (Permutation_in _ (Permutation_sym E3)). apply lookup_in; [apply I|exact Hk]. }
      destruct rest as [|e0 rest].
      * injection H as <-. unfold finish. rewrite app_nil_r in E4.
        assert (HO : out_ok (v_hist s) (mk_out (v_start s) (now s) (v_cutmap s) (v_mapupto s) (v_nofrom s) (v_done s) (v_dest s))).
        { rewrite E1. apply (finish_out s no dn pts (skipn (v_cutmap s) (v_hist s))); auto; try apply I; try lia.
          - congruence.
          - rewrite <- E4. apply dedup_nodup.
          - rewrite <- E4. exact Hent.
          - rewrite <- E4. exact Hall.
          - intros e He. destruct (vi_cls _ I _ He) as [[_ ->]|[_ [-> | ->]]]; [apply canon_nil; reflexivity|apply canon_idem|exact canon_ovf]. }
        split; cbn [v_map v_calls v_pc v_dest v_start v_mapupto v_nofrom v_done v_hist v_cutno v_cutmap v_outs]; unfold now; cbn [v_hist]; try apply I; auto.
        -- intros e He Hc. destruct (vi_flag _ I _ He Hc) as [X|[[_ X]|X]]; auto. congruence.
        -- reflexivity.
        -- apply Forall_app. split; [apply I|constructor; [exact HO|constructor]].
        -- congruence.
        -- congruence.
      * injection H as <-.
        assert (HT : Forall2 (tp_ok s) [e0] (tracker_point s e0)).
        { pose proof (tracker_points s (skipn (v_cutmap s) (v_hist s)) [e0] (vi_map _ I) eq_refl) as X. cbn [flat_map] in X. rewrite app_nil_r in X. apply X; auto; try lia.
          intros k id [E|[]]. apply Hent. rewrite E4. apply in_or_app. right. left. exact E. }
        split; cbn [v_map v_calls v_pc v_dest v_start v_mapupto v_nofrom v_done v_hist v_cutno v_cutmap v_outs]; unfold now; cbn [v_hist]; try apply I; auto.
        -- intros e He Hc. destruct (vi_flag _ I _ He Hc) as [X|[[_ X]|X]]; auto. congruence.
        -- unfold col_ok. cbn [v_pc v_dest v_map v_hist v_cutmap v_mapupto v_start v_nofrom v_cutno]. unfold now. cbn [v_hist]. split; [exact Ed|]. split; [exact Hmu|]. split; [exact Hhas|]. split; [exact Hr|].
           exists no, es, (dn ++ [e0]), (pts ++ tracker_point s e0). split; [rewrite E1, app_assoc; reflexivity|]. split; [exact E2|]. split; [exact E3|]. split; [rewrite <- app_assoc; exact E4|].
           apply Forall2_app; [exact E5|exact HT].
        -- congruence.
Qed.

Lemma vinv_run : forall acts s s', vinv s -> vrun s acts = Some s' -> vinv s'.
Proof.
  induction acts as [|a acts IH]; intros s s' I H; cbn [ValueMapModel.vrun] in H; [injection H as <-; exact I|].
  destruct (vstep s a) as [s1|] eqn:E; [|discriminate]. exact (IH _ _ (vinv_step _ _ _ I E) H).
Qed.
Lemma vinv_reach acts s : vrun v_init acts = Some s -> vinv s.
Proof. apply vinv_run, vinv_init. Qed.
End proofs.
