From Coq Require Import List NArith Bool Lia Sorted.
From Coq Require Import ZifyBool ZifyNat ZifyN.
From Verif Require Import ContextModel ContextSpec.
From stdpp Require Import base list gmap.
Import ListNotations.

Ltac split5 := refine (conj _ (conj _ (conj _ (conj _ _)))).

(** * The stack as a function of the live positions *)
Section stack.
Context {A : Type}.
Implicit Types (L : list (N * A)).

Fixpoint build (prev : A) (q : N) L : list (option A) :=
  match L with
  | [] => []
  | (p, c) :: r => Some prev :: repeat None (N.to_nat (p - q - 1)) ++ build c p r
  end.

Fixpoint asc (q : N) L : Prop :=
  match L with
  | [] => True
  | (p, c) :: r => (q < p)%N /\ asc p r
  end.

Definition top (q : N) L : N := List.last (map fst L) q.
Definition topc (b : A) L : A := List.last (map snd L) b.

Lemma last_cons_default {B} (x d : B) l : List.last (x :: l) d = List.last l x.
Proof. revert x d. induction l as [|y l IH]; intros x d; [done|].
  change (List.last (x :: y :: l) d) with (List.last (y :: l) d).
  rewrite !IH. done. Qed.

Lemma last_app_cons {B} (l1 l2 : list B) x d : List.last (l1 ++ x :: l2) d = List.last l2 x.
Proof. revert d. induction l1 as [|y l1 IH]; intros d; cbn [app]; rewrite last_cons_default; [done|].
  apply IH. Qed.

Lemma last_snoc {B} (l : list B) x d : List.last (l ++ [x]) d = x.
Proof. apply List.last_last. Qed.

Lemma top_cons q p c L : top q ((p, c) :: L) = top p L.
Proof. unfold top. simpl map. apply last_cons_default. Qed.
Lemma topc_cons b p c L : topc b ((p, c) :: L) = topc c L.
Proof. unfold topc. simpl map. apply last_cons_default. Qed.
Lemma top_snoc q L p c : top q (L ++ [(p, c)]) = p.
Proof. unfold top. rewrite map_app. apply last_snoc. Qed.
Lemma topc_snoc q L p c : topc q (L ++ [(p, c)]) = c.
Proof. unfold topc. rewrite map_app. apply last_snoc. Qed.

Lemma asc_top q L : asc q L -> (q <= top q L)%N.
Proof. revert q. induction L as [|[p c] L IH]; intros q H; [reflexivity|].
  rewrite top_cons. destruct H as [H1 H2]. specialize (IH _ H2). lia. Qed.

Lemma build_length b q L : asc q L -> N.of_nat (length (build b q L)) = (top q L - q)%N.
Proof. revert b q. induction L as [|[p c] L IH]; intros b q H; cbn [build].
  { cbn. unfold top; simpl. lia. }
  destruct H as [H1 H2]. cbn [length]. rewrite app_length, repeat_length, top_cons.
  specialize (IH c p H2). pose proof (asc_top _ _ H2). lia. Qed.

Lemma build_app b q L1 L2 :
  build b q (L1 ++ L2) = build b q L1 ++ build (topc b L1) (top q L1) L2.
Proof. revert b q. induction L1 as [|[p c] L1 IH]; intros b q; [done|].
  cbn [app build]. rewrite IH, top_cons, topc_cons, <- app_assoc. done. Qed.

Lemma asc_app q L1 L2 : asc q (L1 ++ L2) <-> asc q L1 /\ asc (top q L1) L2.
Proof. revert q. induction L1 as [|[p c] L1 IH]; intros q.
  { simpl. unfold top; simpl. tauto. }
  cbn [app asc]. rewrite IH, top_cons. tauto. Qed.

Lemma asc_weaken q q' L : (q' <= q)%N -> asc q L -> asc q' L.
Proof. destruct L as [|[p c] L]; [done|]. cbn. intros ? [? ?]. split; [lia|done]. Qed.

Definition SInv (b : A) (s : cstack A) L : Prop :=
  asc 0 L /\ cs_stack s = build b 0 L /\ cs_cur s = topc b L /\ (top 0 L < 65535)%N.

Lemma SInv_init b : SInv b (cs_init b) [].
Proof. repeat split. Qed.

Lemma SInv_len b s L : SInv b s L -> N.of_nat (length (cs_stack s)) = top 0 L.
Proof. intros (H1 & H2 & _). rewrite H2, build_length by done. lia. Qed.

Lemma push_ok b s L c : SInv b s L -> (top 0 L + 1 < 65535)%N ->
  SInv b (fst (cs_push s c)) (L ++ [((top 0 L + 1)%N, c)]) /\
  snd (cs_push s c) = (top 0 L + 1)%N.
Proof.
  intros H Hlt. unfold cs_push. rewrite (SInv_len _ _ _ H).
  destruct H as (H1 & H2 & H3 & H4). unfold MAX_POS.
  destruct (N.ltb_spec (top 0 L + 1) 65535) as [_|?]; [|lia]. cbn [fst snd].
  split; [|done]. repeat split; cbn [cs_stack cs_cur].
  - apply asc_app. split; [done|]. cbn. split; [lia|done].
  - rewrite build_app, H2, H3. cbn [build].
    replace (N.to_nat (top 0 L + 1 - top 0 L - 1)) with 0 by lia. done.
  - rewrite topc_snoc. done.
  - rewrite top_snoc. lia.
Qed.

Lemma push_full b s L c : SInv b s L -> ~ (top 0 L + 1 < 65535)%N ->
  cs_push s c = (s, 65535%N).
Proof. intros H Hlt. unfold cs_push. rewrite (SInv_len _ _ _ H). unfold MAX_POS.
  destruct (N.ltb_spec (top 0 L + 1) 65535); [lia|done]. Qed.

Lemma skip_none_repeat k (l : list (option A)) c :
  skip_none (repeat None k ++ Some c :: l) = Some c :: l.
Proof. induction k; cbn; done. Qed.

Lemma set_none_app (l1 l2 : list (option A)) x :
  set_none (l1 ++ x :: l2) (length l1) = Some (l1 ++ None :: l2).
Proof. induction l1 as [|y l1 IH]; cbn; [done|]. rewrite IH. done. Qed.

Lemma rev_repeat {B} (x : B) k : rev (repeat x k) = repeat x k.
Proof. induction k as [|k IH]; cbn [repeat rev]; [done|]. rewrite IH. clear IH.
  induction k as [|k IH]; cbn [repeat app]; [done|]. rewrite IH. done. Qed.

Lemma pop_ok b s L1 p c L2 : SInv b s (L1 ++ (p, c) :: L2) ->
  exists s', guard_drop s p = Some s' /\ SInv b s' (L1 ++ L2).
Proof.
  intros H. pose proof (SInv_len _ _ _ H) as Hlen. destruct H as (H1 & H2 & H3 & H4).
  pose proof H1 as Hasc. apply asc_app in H1 as [H1a [H1b H1c]].
  pose proof (asc_top _ _ H1a) as Ht1. pose proof (asc_top _ _ H1c) as Ht2.
  assert (top 0 (L1 ++ (p, c) :: L2) = top p L2) as Htop.
  { unfold top. rewrite map_app. cbn [map fst]. apply last_app_cons. }
  assert (topc b (L1 ++ (p, c) :: L2) = topc c L2) as Htopc.
  { unfold topc. rewrite map_app. cbn [map snd]. apply last_app_cons. }
  rewrite Htop in *. rewrite Htopc in *.
  unfold guard_drop, BASE_POS, MAX_POS.
  destruct (N.ltb_spec 0 p) as [_|?]; [|lia].
  destruct (N.ltb_spec p 65535) as [_|?]; [|lia]. cbn [andb].
  unfold cs_pop_id, BASE_POS, MAX_POS.
  destruct (N.eqb_spec p 0) as [?|_]; [lia|].
  destruct (N.eqb_spec p 65535) as [?|_]; [lia|]. cbn [orb].
  rewrite Hlen. rewrite N.mod_small by lia.
  destruct L2 as [|[p' c'] L2].
  - (* top of the stack *)
    unfold top; cbn [map List.last]. rewrite N.eqb_refl.
    eexists; split; [done|]. rewrite app_nil_r.
    rewrite H2, build_app. cbn [build]. rewrite app_nil_r.
    rewrite rev_app_distr. cbn [rev]. rewrite rev_repeat, <- app_assoc. cbn [app].
    rewrite skip_none_repeat. cbn [restore_top]. rewrite rev_involutive.
    repeat split; [done|]. lia.
  - rewrite top_cons in *. destruct H1c as [H1c H1d].
    pose proof (asc_top _ _ H1d).
    destruct (N.eqb_spec p (top p' L2)) as [?|_]; [lia|].
    destruct (N.leb_spec (top p' L2) p) as [?|_]; [lia|].
    rewrite H2, build_app. cbn [build].
    set (pre := build b 0 L1 ++ Some (topc b L1) :: repeat None (N.to_nat (p - top 0 L1 - 1))).
    assert (build b 0 L1 ++ Some (topc b L1) :: repeat None (N.to_nat (p - top 0 L1 - 1)) ++
      Some c :: repeat None (N.to_nat (p' - p - 1)) ++ build c' p' L2 =
      pre ++ Some c :: (repeat None (N.to_nat (p' - p - 1)) ++ build c' p' L2)) as ->.
    { unfold pre. rewrite <- app_assoc. done. }
    assert (N.to_nat p = length pre) as ->.
    { unfold pre. rewrite app_length. cbn [length]. rewrite repeat_length.
      pose proof (build_length b 0 L1 H1a). lia. }
    rewrite set_none_app. eexists; split; [done|].
    repeat split; cbn [cs_stack cs_cur].
    + apply asc_app. split; [done|]. cbn. split; [lia|done].
    + rewrite build_app. cbn [build]. unfold pre. rewrite <- app_assoc. cbn [app].
      f_equal. f_equal.
      change (None :: repeat None (N.to_nat (p' - p - 1)) ++ build c' p' L2)
        with (repeat (@None A) (S (N.to_nat (p' - p - 1))) ++ build c' p' L2).
      rewrite app_assoc. f_equal.
      replace (N.to_nat (p' - top 0 L1 - 1))
        with (N.to_nat (p - top 0 L1 - 1) + S (N.to_nat (p' - p - 1))) by lia.
      rewrite repeat_app. done.
    + rewrite H3. unfold topc. rewrite map_app. cbn [map snd].
      rewrite last_cons_default, last_app_cons. done.
    + unfold top. rewrite map_app. cbn [map fst].
      assert (List.last (map fst L1 ++ p' :: map fst L2) 0%N = top p' L2) as ->; [|lia].
      apply last_app_cons.
Qed.

(** * Threads *)

Definition TInv (b : A) (t : thread A) (w : lworld A) : Prop :=
  length (th_guards t) = lw_next w /\
  SInv b (th_stack t) (map snd (lw_live w)) /\
  NoDup (map fst (lw_live w)) /\
  (forall g p c, In (g, (p, c)) (lw_live w) -> nth_error (th_guards t) g = Some (Some p)) /\
  (forall g id, nth_error (th_guards t) g = Some (Some id) ->
     id = 65535%N \/ exists c, In (g, (id, c)) (lw_live w)).

Lemma TInv_init b : TInv b (th_init b) lw_init.
Proof. repeat split; cbn; try done; [constructor|]. intros [|g] id; done. Qed.

Lemma top_depth (w : lworld A) : top 0 (map snd (lw_live w)) = lw_depth w.
Proof. unfold top, lw_depth. rewrite map_map. done. Qed.
Lemma topc_current b (w : lworld A) : topc b (map snd (lw_live w)) = lw_current b w.
Proof. unfold topc, lw_current. rewrite map_map. done. Qed.

Lemma nth_error_snoc {B} (l : list B) x i y :
  nth_error (l ++ [x]) i = Some y ->
  nth_error l i = Some y \/ (i = length l /\ y = x).
Proof.
  destruct (Nat.lt_ge_cases i (length l)) as [Hi|Hi].
  - rewrite nth_error_app1 by done. tauto.
  - rewrite nth_error_app2 by done. destruct (i - length l) as [|k] eqn:E.
    + cbn. intros [= ->]. right. split; [lia|done].
    + cbn. destruct k; done.
Qed.

Lemma filter_ne_notin {B} g (l : list (nat * B)) :
  ~ In g (map fst l) ->
  List.filter (fun e => negb (Nat.eqb (fst e) g)) l = l.
Proof. induction l as [|[k x] l IH]; cbn; [done|]. intros H.
  destruct (Nat.eqb_spec k g) as [->|_]; [tauto|]. cbn. rewrite IH by tauto. done. Qed.

Lemma filter_ne_split {B} g (l1 l2 : list (nat * B)) x :
  NoDup (map fst (l1 ++ (g, x) :: l2)) ->
  List.filter (fun e => negb (Nat.eqb (fst e) g)) (l1 ++ (g, x) :: l2) = l1 ++ l2.
Proof.
  rewrite map_app. cbn [map fst]. intros H. apply NoDup_app in H as (H1 & H2 & H3).
  apply NoDup_cons in H3 as [H3 H4]. rewrite List.filter_app. cbn [List.filter fst].
  rewrite Nat.eqb_refl. cbn [negb]. rewrite !filter_ne_notin; [done| |].
  - rewrite <- elem_of_list_In. done.
  - rewrite <- elem_of_list_In. intros Hin. apply (H2 _ Hin). left.
Qed.

Lemma nth_error_insert_ne {B} (l : list B) i j x :
  i <> j -> nth_error (<[i := x]> l) j = nth_error l j.
Proof. intros H. revert i j H. induction l as [|y l IH]; intros i j H.
  - destruct i; done.
  - destruct i, j; cbn; try done. apply IH. lia. Qed.

Lemma nth_error_insert_eq {B} (l : list B) i x y :
  nth_error (<[i := x]> l) i = Some y -> y = x.
Proof. revert i. induction l as [|z l IH]; intros i; [destruct i; done|].
  destruct i as [|i]; cbn; [congruence|]. apply IH. Qed.

Lemma length_insert_nat {B} (l : list B) i x : length (<[i := x]> l) = length l.
Proof. apply insert_length. Qed.

Lemma th_step_ok b t w o : TInv b t w ->
  exists t', th_step t o = Some t' /\ TInv b t' (lw_step w o).
Proof.
  intros (H1 & H2 & H3 & H4 & H5). destruct o as [c|g].
  - cbn [th_step lw_step]. rewrite <- top_depth.
    destruct (N.ltb_spec (top 0 (map snd (lw_live w)) + 1) 65535) as [Hlt|Hge].
    + destruct (push_ok b _ _ c H2 Hlt) as [Hp Hid].
      destruct (cs_push (th_stack t) c) as [s id] eqn:E. cbn [fst snd] in Hp, Hid. subst id.
      eexists; split; [done|]. split5; cbn [th_guards th_stack lw_live lw_next].
      * rewrite app_length. cbn. lia.
      * rewrite map_app. cbn [map snd]. exact Hp.
      * rewrite map_app. cbn [map fst]. apply NoDup_app. split; [done|]. split.
        -- intros x Hx Hx2. apply elem_of_list_singleton in Hx2 as ->.
           apply elem_of_list_In, in_map_iff in Hx as ([g [p c']] & Hg & Hin).
           cbn in Hg. subst g. apply H4 in Hin.
           assert (lw_next w < length (th_guards t)) by (apply nth_error_Some; congruence). lia.
        -- apply NoDup_singleton.
      * intros g p c' Hin. apply in_app_or in Hin as [Hin|[Hin|[]]].
        -- apply H4 in Hin. rewrite nth_error_app1; [done|].
           apply nth_error_Some. congruence.
        -- injection Hin as <- <- <-. rewrite <- H1. rewrite nth_error_app2 by lia.
           rewrite Nat.sub_diag. done.
      * intros g id Hg. apply nth_error_snoc in Hg as [Hg|[-> Hid]].
        -- destruct (H5 _ _ Hg) as [?|[c' ?]]; [left; done|right; exists c'; apply in_or_app; tauto].
        -- injection Hid as ->. right. exists c. apply in_or_app. right. left. rewrite H1. done.
    + rewrite (push_full _ _ _ c H2) by lia. eexists; split; [done|].
      split5; cbn [th_guards th_stack lw_live lw_next]; try done.
      * rewrite app_length. cbn. lia.
      * intros g p c' Hin. apply H4 in Hin. rewrite nth_error_app1; [done|].
        apply nth_error_Some. congruence.
      * intros g id Hg. apply nth_error_snoc in Hg as [Hg|[-> Hid]]; [apply H5; done|].
        injection Hid as ->. left. done.
  - cbn [th_step lw_step].
    assert (forall p c, ~ In (g, (p, c)) (lw_live w) -> True) as _ by done.
    destruct (nth_error (th_guards t) g) as [[id|]|] eqn:Eg.
    + destruct (H5 _ _ Eg) as [->|[c Hin]].
      * (* inert guard *)
        assert (~ In g (map fst (lw_live w))) as Hni.
        { intros Hin. apply in_map_iff in Hin as ([g' [p c]] & Hg & Hin). cbn in Hg. subst g'.
          pose proof (H4 _ _ _ Hin) as Hn. rewrite Eg in Hn. injection Hn as <-.
          destruct H2 as (Ha & _ & _ & Hb).
          apply in_split in Hin as (l1 & l2 & Hsp). rewrite Hsp, map_app in Ha, Hb.
          cbn [map snd] in Ha, Hb.
          apply asc_app in Ha as [Ha1 [Ha2 Ha3]]. apply asc_top in Ha3.
          assert (top 0 (map snd l1 ++ (65535%N, c) :: map snd l2) = top 65535 (map snd l2)) as E.
          { unfold top. rewrite map_app. cbn [map fst]. apply last_app_cons. }
          rewrite E in Hb. lia. }
        change (guard_drop (th_stack t) 65535) with (Some (th_stack t)).
        eexists; split; [done|]. rewrite (filter_ne_notin _ _ Hni).
        split5; cbn [th_guards th_stack lw_live lw_next]; try done.
        -- rewrite length_insert_nat. done.
        -- intros g' p c' Hin. destruct (Nat.eq_dec g g') as [<-|Hne].
           ++ exfalso. apply Hni. apply in_map_iff. exists (g, (p, c')). done.
           ++ rewrite nth_error_insert_ne by done. eapply H4; done.
        -- intros g' id Hg'. destruct (Nat.eq_dec g g') as [<-|Hne].
           ++ apply nth_error_insert_eq in Hg'. done.
           ++ rewrite nth_error_insert_ne in Hg' by done. apply H5. done.
      * apply in_split in Hin as (l1 & l2 & Hsp).
        pose proof H2 as H2'. rewrite Hsp, map_app in H2'. cbn [map snd] in H2'.
        destruct (pop_ok _ _ _ _ _ _ H2') as (s' & Hs' & Hinv).
        rewrite Hs'. eexists; split; [done|]. rewrite Hsp in H3 |- *.
        rewrite filter_ne_split by done.
        assert (NoDup (map fst (l1 ++ l2))) as Hnd'.
        { rewrite map_app in H3 |- *. cbn [map fst] in H3.
          apply NoDup_app in H3 as (Ha & Hb & Hc). apply NoDup_cons in Hc as [Hc Hd].
          apply NoDup_app. split; [done|]. split; [|done].
          intros x Hx Hx2. apply (Hb x Hx). right. done. }
        assert (~ In g (map fst (l1 ++ l2))) as Hng.
        { rewrite map_app in H3 |- *. cbn [map fst] in H3.
          apply NoDup_app in H3 as (Ha & Hb & Hc). apply NoDup_cons in Hc as [Hc Hd].
          intros Hx. apply in_app_or in Hx as [Hx|Hx].
          - apply elem_of_list_In in Hx. apply (Hb _ Hx). left.
          - apply elem_of_list_In in Hx. done. }
        split5; cbn [th_guards th_stack lw_live lw_next]; try done.
        -- rewrite length_insert_nat. done.
        -- rewrite map_app. exact Hinv.
        -- intros g' p c' Hin. destruct (Nat.eq_dec g g') as [<-|Hne].
           ++ exfalso. apply Hng. apply in_map_iff. exists (g, (p, c')). done.
           ++ rewrite nth_error_insert_ne by done. eapply H4. rewrite Hsp.
              apply in_app_or in Hin. apply in_or_app. cbn. destruct Hin; [left|right; right]; done.
        -- intros g' id' Hg'. destruct (Nat.eq_dec g g') as [<-|Hne].
           ++ apply nth_error_insert_eq in Hg'. done.
           ++ rewrite nth_error_insert_ne in Hg' by done.
              destruct (H5 _ _ Hg') as [->|[c' Hin]]; [left; done|]. right. exists c'.
              rewrite Hsp in Hin. apply in_app_or in Hin. apply in_or_app.
              destruct Hin as [?|[Hx|?]]; [left; done| |right; done].
              congruence.
    + eexists; split; [done|]. rewrite filter_ne_notin; [split5; done|].
      intros Hin. apply in_map_iff in Hin as ([g' [p c]] & Hg & Hin). cbn in Hg. subst.
      apply H4 in Hin. congruence.
    + eexists; split; [done|]. rewrite filter_ne_notin; [split5; done|].
      intros Hin. apply in_map_iff in Hin as ([g' [p c]] & Hg & Hin). cbn in Hg. subst.
      apply H4 in Hin. congruence.
Qed.

Lemma th_run_ok b ops t w : TInv b t w ->
  exists t', th_run t ops = Some t' /\ TInv b t' (lw_run w ops).
Proof.
  revert t w. induction ops as [|o ops IH]; intros t w H; [eexists; split; [done|exact H]|].
  destruct (th_step_ok b t w o H) as (t' & Ht & Hi). cbn [th_run]. rewrite Ht.
  destruct (IH _ _ Hi) as (t2 & Ht2 & Hi2). exists t2. split; [done|exact Hi2].
Qed.

Lemma TInv_current b t w : TInv b t w -> th_current t = lw_current b w.
Proof. intros (_ & (_ & _ & H & _) & _). unfold th_current. rewrite H. apply topc_current. Qed.

(** Main refinement: the thread never panics and always shows the context of
    the youngest live accepted guard. *)
Lemma run_refines (b : A) ops :
  exists t, th_run (th_init b) ops = Some t /\
            th_current t = lw_current b (lw_run lw_init ops).
Proof.
  destruct (th_run_ok b ops _ _ (TInv_init b)) as (t & Ht & Hi).
  exists t. split; [done|]. apply TInv_current. done.
Qed.

(** Without overflow the limited bookkeeping is the plain one. *)
Definition strip (w : lworld A) : world A :=
  mk_world (lw_next w) (map (fun e => (fst e, snd (snd e))) (lw_live w)).

Lemma filter_map_strip g (l : list (nat * (N * A))) :
  List.filter (fun e => negb (Nat.eqb (fst e) g)) (map (fun e => (fst e, snd (snd e))) l) =
  map (fun e => (fst e, snd (snd e))) (List.filter (fun e => negb (Nat.eqb (fst e) g)) l).
Proof. induction l as [|[k x] l IH]; cbn; [done|].
  destruct (Nat.eqb k g); cbn; rewrite IH; done. Qed.

Definition lasc (w : lworld A) : Prop := asc 0 (map snd (lw_live w)).

Lemma asc_filter (f : nat * (N * A) -> bool) q l :
  asc q (map snd l) -> asc q (map snd (List.filter f l)).
Proof. revert q. induction l as [|[g [p c]] l IH]; intros q H; [done|].
  cbn [map snd List.filter] in *. destruct H as [H1 H2].
  destruct (f (g, (p, c))); cbn [map snd asc].
  - split; [done|]. apply IH. done.
  - apply (asc_weaken p); [lia|]. apply IH. done. Qed.

Lemma top_filter (f : nat * (N * A) -> bool) q l :
  asc q (map snd l) -> (top q (map snd (List.filter f l)) <= top q (map snd l))%N.
Proof. revert q. induction l as [|[g [p c]] l IH]; intros q H; [done|].
  cbn [map snd List.filter] in *. destruct H as [H1 H2]. rewrite top_cons.
  destruct (f (g, (p, c))); cbn [map snd].
  - rewrite top_cons. apply IH. done.
  - specialize (IH p H2). etransitivity; [|exact IH].
    generalize (asc_filter f _ _ H2) as H3. generalize (map snd (List.filter f l)) as L.
    intros L H3. destruct L as [|[p' c'] L]; [cbn; lia|]. rewrite !top_cons. lia. Qed.

Lemma strip_step w o : lasc w -> (lw_depth w <= N.of_nat (lw_next w))%N ->
  (is_attach o = true -> N.of_nat (lw_next w) + 1 < 65535)%N ->
  strip (lw_step w o) = w_step (strip w) o /\ lasc (lw_step w o) /\
  (lw_depth (lw_step w o) <= N.of_nat (lw_next (lw_step w o)))%N.
Proof.
  intros Ha Hd Hn. destruct o as [c|g]; cbn [lw_step w_step].
  - specialize (Hn eq_refl). destruct (N.ltb_spec (lw_depth w + 1) 65535) as [Hlt|?]; [|lia].
    split.
    + unfold strip. cbn. rewrite map_app. done.
    + split.
      * unfold lasc in *. cbn [lw_live]. rewrite map_app. apply asc_app. split; [done|].
        rewrite top_depth. cbn. split; [lia|done].
      * rewrite <- !top_depth in *. cbn [lw_live lw_next]. rewrite map_app. cbn [map snd].
        rewrite top_snoc. lia.
  - split; [|split].
    + unfold strip. cbn [lw_live lw_next w_live w_next]. rewrite filter_map_strip. done.
    + unfold lasc in *. cbn [lw_live]. apply asc_filter. done.
    + rewrite <- !top_depth in *. cbn [lw_live lw_next].
      pose proof (top_filter (fun e => negb (Nat.eqb (fst e) g)) 0 (lw_live w) Ha). lia.
Qed.

Lemma strip_run ops w : lasc w -> (lw_depth w <= N.of_nat (lw_next w))%N ->
  (N.of_nat (lw_next w) + N.of_nat (attaches ops) <= 65534)%N ->
  strip (lw_run w ops) = w_run (strip w) ops.
Proof.
  revert w. induction ops as [|o ops IH]; intros w Ha Hd Hn; [done|].
  cbn [lw_run w_run fold_left].
  assert (Hn' : is_attach o = true -> (N.of_nat (lw_next w) + 1 < 65535)%N).
  { intros Ho. unfold attaches in Hn. cbn [List.filter] in Hn. rewrite Ho in Hn. cbn in Hn. lia. }
  destruct (strip_step w o Ha Hd Hn') as (Hs & Ha' & Hd').
  rewrite <- Hs. apply IH; [done..|].
  unfold attaches in *. destruct o as [c|g]; cbn [is_attach List.filter length lw_step lw_next] in *.
  - destruct (N.ltb_spec (lw_depth w + 1) 65535); cbn [lw_next]; lia.
  - lia.
Qed.

Lemma strip_current b w : w_current b (strip w) = lw_current b w.
Proof. unfold w_current, strip, lw_current. cbn [w_live]. rewrite map_map. done. Qed.

Lemma run_current (b : A) ops : (N.of_nat (attaches ops) <= 65534)%N ->
  exists t, th_run (th_init b) ops = Some t /\
            th_current t = w_current b (w_run w_init ops).
Proof.
  intros Hn. destruct (run_refines b ops) as (t & Ht & Hc). exists t. split; [done|].
  rewrite Hc, <- strip_current. f_equal. apply (strip_run ops lw_init); [done..|].
  cbn [lw_next lw_init]. lia.
Qed.

(** * Overflow *)

Lemma overflow_inert (b : A) ops t c :
  th_run (th_init b) ops = Some t ->
  (65534 <= lw_depth (lw_run lw_init ops))%N ->
  exists t1, th_step t (Attach c) = Some t1 /\ th_stack t1 = th_stack t /\
    forall rest, exists t2 t3,
      th_run t1 rest = Some t2 /\
      th_step t2 (DropGuard (length (th_guards t))) = Some t3 /\ th_stack t3 = th_stack t2.
Proof.
  intros Hrun Hd. destruct (th_run_ok b ops _ _ (TInv_init b)) as (t' & Ht & Hi).
  rewrite Hrun in Ht. injection Ht as <-.
  destruct Hi as (H1 & H2 & H3 & H4 & H5). set (w := lw_run lw_init ops) in *.
  rewrite <- top_depth in Hd.
  eexists. split; [cbn [th_step]; rewrite (push_full _ _ _ c H2) by lia; reflexivity|].
  split; [done|]. intros rest.
  set (t1 := mk_thread (th_stack t) (th_guards t ++ [Some 65535%N])).
  assert (TInv b t1 (lw_step w (Attach c))) as Hi1.
  { destruct (th_step_ok b t w (Attach c)) as (t1' & Hs & Hi1).
    { split5; done. }
    cbn [th_step] in Hs. rewrite (push_full _ _ _ c H2) in Hs by lia.
    injection Hs as <-. exact Hi1. }
  destruct (th_run_ok b rest _ _ Hi1) as (t2 & Ht2 & Hi2).
  set (w2 := lw_run (lw_step w (Attach c)) rest) in *.
  exists t2. 
  (* guard entry is Some 65535 or already dropped *)
  assert (forall rest (t1 t2 : thread A), nth_error (th_guards t1) (length (th_guards t)) = Some (Some 65535%N) \/
             nth_error (th_guards t1) (length (th_guards t)) = Some None ->
            th_run t1 rest = Some t2 ->
            nth_error (th_guards t2) (length (th_guards t)) = Some (Some 65535%N) \/
            nth_error (th_guards t2) (length (th_guards t)) = Some None) as Hpres.
  { clear. intros rest. induction rest as [|o rest IH]; intros t1 t2 H Hr; cbn [th_run] in Hr.
    { injection Hr as <-. done. }
    destruct (th_step t1 o) as [t1'|] eqn:E; [|done]. apply (IH t1' t2); [|done].
    destruct o as [c|g]; cbn [th_step] in E.
    - destruct (cs_push (th_stack t1) c) as [s id]. injection E as <-. cbn [th_guards].
      rewrite nth_error_app1; [done|]. apply nth_error_Some. destruct H; congruence.
    - destruct (nth_error (th_guards t1) g) as [[id|]|] eqn:Eg; [|injection E as <-; done..].
      destruct (guard_drop (th_stack t1) id) as [s|]; [|done]. injection E as <-. cbn [th_guards].
      destruct (Nat.eq_dec g (length (th_guards t))) as [->|Hne].
      + right. assert (length (th_guards t) < length (th_guards t1)) as Hl
          by (apply nth_error_Some; congruence).
        clear - Hl. revert Hl. generalize (length (th_guards t)) (th_guards t1).
        intros n l. revert n. induction l as [|x l IH]; intros n Hl; cbn in Hl; [lia|].
        destruct n as [|n]; cbn; [done|]. apply IH. lia.
      + rewrite !nth_error_insert_ne by done. done. }
  destruct (Hpres rest t1 t2) as [E|E]; [|done| |].
  - left. unfold t1. cbn [th_guards]. rewrite nth_error_app2 by lia. rewrite Nat.sub_diag. done.
  - eexists. split; [exact Ht2|]. cbn [th_step]. rewrite E. cbn. split; reflexivity.
  - eexists. split; [exact Ht2|]. cbn [th_step]. rewrite E. split; reflexivity.
Qed.

Lemma live_ids_distinct (b : A) ops t g1 g2 id :
  th_run (th_init b) ops = Some t ->
  nth_error (th_guards t) g1 = Some (Some id) ->
  nth_error (th_guards t) g2 = Some (Some id) ->
  id <> 65535%N -> g1 = g2.
Proof.
  intros Hrun Hg1 Hg2 Hid. destruct (th_run_ok b ops _ _ (TInv_init b)) as (t' & Ht & Hi).
  rewrite Hrun in Ht. injection Ht as <-.
  destruct Hi as (H1 & H2 & H3 & H4 & H5).
  destruct (H5 _ _ Hg1) as [?|[c1 Hin1]]; [done|]. destruct (H5 _ _ Hg2) as [?|[c2 Hin2]]; [done|].
  destruct H2 as (Ha & _). revert Ha Hin1 Hin2. generalize (lw_live (lw_run lw_init ops)) 0%N.
  clear. intros l. induction l as [|[g [p c]] l IH]; intros q Ha Hin1 Hin2; [done|].
  cbn [map snd asc] in Ha. destruct Ha as [Ha1 Ha2].
  assert (forall q (l : list (nat * (N * A))) g c, asc q (map snd l) -> In (g, (q, c)) l -> False) as Habs.
  { clear. intros q l g c Ha Hin. assert (exists q', (q <= q')%N /\ asc q' (map snd l)) as (q' & Hle & Ha')
      by (exists q; split; [lia|done]).
    clear Ha. revert q' Hle Ha'. induction l as [|[g' [p' c']] l IH]; intros q' Hle Ha; [done|].
    cbn [map snd asc] in Ha. destruct Ha as [H1 H2]. destruct Hin as [E|Hin].
    - injection E as <- <- <-. lia.
    - apply (IH Hin p'); [lia|done]. }
  destruct Hin1 as [E1|Hin1], Hin2 as [E2|Hin2].
  - congruence.
  - injection E1 as <- <- <-. exfalso. eapply Habs; done.
  - injection E2 as <- <- <-. exfalso. eapply Habs; done.
  - eapply IH; done.
Qed.

(** * with_context *)

Lemma lw_run_app (w : lworld A) o1 o2 : lw_run w (o1 ++ o2) = lw_run (lw_run w o1) o2.
Proof. apply fold_left_app. Qed.

Lemma th_run_app (t : thread A) o1 o2 :
  th_run t (o1 ++ o2) = match th_run t o1 with Some t' => th_run t' o2 | None => None end.
Proof. revert t. induction o1 as [|o o1 IH]; intros t; [done|]. cbn [app th_run].
  destruct (th_step t o); [apply IH|done]. Qed.

Lemma lw_next_ge (w : lworld A) ops g x :
  (forall g x, In (g, x) (lw_live w) -> g < lw_next w) ->
  In (g, x) (lw_live (lw_run w ops)) -> g < lw_next (lw_run w ops).
Proof.
  revert w. induction ops as [|o ops IH]; intros w H Hin; [eapply H; done|].
  cbn [lw_run fold_left] in *. apply IH; [|done]. clear - H. intros g x. destruct o as [c|g']; cbn [lw_step].
  - destruct (N.ltb (lw_depth w + 1) 65535); cbn [lw_live lw_next].
    + intros Hin. apply in_app_or in Hin as [Hin|[Hin|[]]]; [apply H in Hin; lia|].
      injection Hin as <- _. lia.
    + intros Hin. apply H in Hin. lia.
  - cbn [lw_live lw_next]. intros Hin. apply List.filter_In in Hin as [Hin _]. eapply H; done.
Qed.

(** The guards that a stretch of operations created and left alive, seen from
    outside, are among those the plain bookkeeping reports. *)
Lemma inner_frame n (P X : list (nat * (N * A))) (W : world A) inner nx :
  (forall g x, In (g, x) P -> g <= n) ->
  Forall (fun o => match o with DropGuard g => n < g | Attach _ => True end) inner ->
  nx = w_next W ->
  (forall g x, In (g, x) X -> In g (map fst (w_live W))) ->
  exists X', lw_live (lw_run (mk_lworld nx (P ++ X)) inner) = P ++ X' /\
    (forall g x, In (g, x) X' -> In g (map fst (w_live (w_run W inner)))).
Proof.
  intros HP. revert X W nx. induction inner as [|o inner IH]; intros X W nx Hall Hnx HX.
  { exists X. done. }
  apply Forall_cons in Hall as [Ho Hall]. cbn [lw_run w_run fold_left].
  destruct o as [c|g]; cbn [lw_step w_step].
  - destruct (N.ltb _ 65535); cbn [lw_live lw_next].
    + rewrite <- app_assoc. apply IH; [done|cbn; congruence|].
      intros g x Hin. cbn [w_live]. rewrite map_app. apply in_or_app.
      apply in_app_or in Hin as [Hin|[Hin|[]]]; [left; eapply HX; done|].
      injection Hin as <- _. right. left. cbn. done.
    + apply IH; [done|cbn; congruence|].
      intros g x Hin. cbn [w_live]. rewrite map_app. apply in_or_app. left. eapply HX; done.
  - cbn [lw_live lw_next]. rewrite List.filter_app.
    rewrite (filter_ne_notin g P).
    + apply IH; [done|done|]. intros g' x Hin. apply List.filter_In in Hin as [Hin Hne].
      cbn [w_live]. apply HX in Hin. apply in_map_iff in Hin as ([g2 y] & Hg & Hin). cbn in Hg. subst g2.
      apply in_map_iff. exists (g', y). split; [done|]. apply List.filter_In. split; [done|]. done.
    + intros Hin. apply in_map_iff in Hin as ([g2 y] & Hg & Hin). cbn in Hg. subst g2.
      apply HP in Hin. lia.
Qed.

Lemma wc_poll_general (b : A) ops t stored inner :
  th_run (th_init b) ops = Some t ->
  exists seen t',
    wc_poll t stored inner = Some (seen, t') /\
    seen = lw_current b (lw_run lw_init (ops ++ [Attach stored])) /\
    th_current t' =
      lw_current b (lw_run lw_init (ops ++ [Attach stored] ++ inner ++ [DropGuard (attaches ops)])).
Proof.
  intros Hrun.
  assert (length (th_guards t) = attaches ops) as Hlen.
  { clear - Hrun. assert (forall t0, th_run t0 ops = Some t ->
      length (th_guards t) = length (th_guards t0) + attaches ops) as H.
    { clear. revert t. induction ops as [|o ops IH]; intros t t0 H; cbn [th_run] in H.
      - injection H as <-. cbn. lia.
      - destruct (th_step t0 o) as [t1|] eqn:E; [|done]. rewrite (IH _ _ H).
        destruct o as [c|g]; cbn [th_step] in E.
        + destruct (cs_push (th_stack t0) c). injection E as <-. cbn [th_guards].
          rewrite app_length. unfold attaches. cbn. lia.
        + destruct (nth_error (th_guards t0) g) as [[id|]|]; [|injection E as <-; done..].
          destruct (guard_drop (th_stack t0) id); [|done]. injection E as <-. cbn [th_guards].
          rewrite length_insert_nat. done. }
    apply H in Hrun. cbn in Hrun. done. }
  destruct (th_run_ok b (ops ++ [Attach stored]) _ _ (TInv_init b)) as (t1 & H1 & I1).
  destruct (th_run_ok b inner _ _ I1) as (t2 & H2 & I2).
  destruct (th_step_ok b t2 _ (DropGuard (attaches ops)) I2) as (t3 & H3 & I3).
  rewrite th_run_app, Hrun in H1. cbn [th_run] in H1.
  destruct (th_step t (Attach stored)) as [t1'|] eqn:E1; [|done]. injection H1 as ->.
  exists (th_current t1), t3. unfold wc_poll. rewrite E1, H2, Hlen, H3. split; [done|].
  split; [apply TInv_current; done|].
  rewrite (TInv_current _ _ _ I3). f_equal. rewrite !lw_run_app. cbn. done.
Qed.

Lemma wc_poll_restores (b : A) ops t stored inner :
  th_run (th_init b) ops = Some t ->
  Forall (fun o => match o with DropGuard g => attaches ops < g | Attach _ => True end) inner ->
  w_live (w_run (mk_world (S (attaches ops)) []) inner) = [] ->
  exists seen t',
    wc_poll t stored inner = Some (seen, t') /\
    th_current t' = th_current t /\
    ((lw_depth (lw_run lw_init ops) < 65534)%N -> seen = stored).
Proof.
  intros Hrun Hall Hbal.
  destruct (wc_poll_general b ops t stored inner Hrun) as (seen & t' & Hp & Hs & Hc).
  exists seen, t'. split; [done|].
  destruct (run_refines b ops) as (t0 & Ht0 & Hc0). rewrite Hrun in Ht0. injection Ht0 as <-.
  assert (Hnext : forall w : lworld A, lw_next (lw_run w ops) = lw_next w + attaches ops).
  { clear. induction ops as [|o ops IH]; intros w; [cbn; lia|].
    change (lw_run w (o :: ops)) with (lw_run (lw_step w o) ops). rewrite IH. unfold attaches. destruct o as [c|g]; cbn [lw_step is_attach List.filter length].
    - destruct (N.ltb _ _); cbn [lw_next]; lia.
    - cbn [lw_next]. lia. }
  specialize (Hnext lw_init). cbn [lw_next lw_init] in Hnext.
  split.
  - rewrite Hc, Hc0.
    rewrite !lw_run_app. set (w := lw_run lw_init ops) in *.
    assert (forall g x, In (g, x) (lw_live w) -> g < attaches ops) as HP.
    { intros g x Hin. cut (g < lw_next w); [lia|]. unfold w. eapply lw_next_ge; [|exact Hin]. done. }
    assert (exists P, (forall g x, In (g, x) P -> g <= attaches ops) /\
      lw_run w [Attach stored] = mk_lworld (S (attaches ops)) P /\
      List.filter (fun e => negb (Nat.eqb (fst e) (attaches ops))) P = lw_live w) as (P & HP1 & HP2 & HP3).
    { assert (List.filter (fun e => negb (Nat.eqb (fst e) (attaches ops))) (lw_live w) = lw_live w) as Hf.
      { apply filter_ne_notin. intros Hin. apply in_map_iff in Hin as ([g2 y] & Hg & Hin).
        cbn in Hg. subst g2. apply HP in Hin. lia. }
      cbn [lw_run fold_left lw_step]. destruct (N.ltb _ 65535).
      - eexists. split; [|split; [rewrite Hnext; reflexivity|]].
        + intros g x Hin. apply in_app_or in Hin as [Hin|[Hin|[]]].
          * apply HP in Hin. lia.
          * injection Hin as <- _. lia.
        + rewrite List.filter_app, Hf. cbn. rewrite ?Nat.eqb_refl. cbn. rewrite app_nil_r. done.
      - eexists. split; [|split; [rewrite Hnext; reflexivity|done]].
        intros g x Hin. apply HP in Hin. lia. }
    rewrite HP2.
    destruct (inner_frame (attaches ops) P [] (mk_world (S (attaches ops)) []) inner (S (attaches ops)))
      as (X' & HX & HX2); [done|done|done|intros ? ? []|].
    rewrite app_nil_r in HX.
    assert (X' = []) as ->.
    { destruct X' as [|[g x] X']; [done|]. specialize (HX2 g x (or_introl eq_refl)).
      rewrite Hbal in HX2. done. }
    rewrite app_nil_r in HX.
    unfold lw_current. cbn [lw_run fold_left lw_step lw_live].
    change (fold_left lw_step inner) with (fun w => lw_run w inner). cbn beta.
    rewrite HX, HP3. done.
  - intros Hd. rewrite Hs, lw_run_app. cbn [lw_run fold_left lw_step].
    change (fold_left lw_step ops lw_init) with (lw_run lw_init ops).
    destruct (N.ltb_spec (lw_depth (lw_run lw_init ops) + 1) 65535) as [_|?]; [|lia].
    unfold lw_current. cbn [lw_live]. rewrite map_app. cbn [map snd]. apply last_snoc.
Qed.

Lemma depth_repeat (c : A) n : (N.of_nat n <= 65534)%N ->
  lw_depth (lw_run lw_init (repeat (Attach c) n)) = N.of_nat n.
Proof.
  induction n as [|n IH]; intros Hn; [done|].
  replace (repeat (Attach c) (S n)) with (repeat (Attach c) n ++ [Attach c])
    by (rewrite <- repeat_cons; done).
  rewrite lw_run_app. cbn [lw_run fold_left lw_step].
  change (fold_left lw_step (repeat (Attach c) n) lw_init) with (lw_run lw_init (repeat (Attach c) n)).
  rewrite IH by lia. destruct (N.ltb_spec (N.of_nat n + 1) 65535) as [_|?]; [|lia].
  unfold lw_depth. cbn [lw_live]. rewrite map_app. cbn [map]. rewrite last_snoc. cbn. lia.
Qed.

End stack.

(** * Context values *)
Section values.
Context {Sp V : Type}.

Lemma get_with_value t v t' (c : context Sp V) :
  cx_get t' (cx_with_value t v c) = if N.eqb t t' then Some v else cx_get t' c.
Proof.
  unfold cx_get, cx_with_value. cbn [cx_entries].
  destruct (N.eqb_spec t t') as [->|Hne].
  - destruct (cx_entries c) as [m|]; rewrite lookup_insert; unfold downcast; cbn [any_type any_val];
      rewrite N.eqb_refl; done.
  - destruct (cx_entries c) as [m|]; rewrite lookup_insert_ne by done; done.
Qed.

Lemma chain_value (c : context Sp V) ds t :
  cx_get t (fold_left apply_deriv ds c) = last_of (value_of t) ds (cx_get t c).
Proof.
  revert c. induction ds as [|d ds IH]; intros c; [done|]. cbn [fold_left last_of].
  rewrite IH. f_equal. destruct d as [t' v|s|]; cbn [apply_deriv value_of]; [|done..].
  rewrite get_with_value. destruct (N.eqb t' t); done.
Qed.

Lemma chain_span (c : context Sp V) ds :
  cx_span (fold_left apply_deriv ds c) = last_of span_of ds (cx_span c).
Proof.
  revert c. induction ds as [|d ds IH]; intros c; [done|]. cbn [fold_left last_of].
  rewrite IH. f_equal. destruct d; done.
Qed.

Lemma chain_suppress (c : context Sp V) ds :
  cx_is_suppressed (fold_left apply_deriv ds c) =
  existsb is_suppress ds || cx_is_suppressed c.
Proof.
  revert c. induction ds as [|d ds IH]; intros c; [done|]. cbn [fold_left existsb].
  rewrite IH. destruct d; cbn [is_suppress apply_deriv orb]; [done..|].
  cbn. rewrite orb_true_r. done.
Qed.

Lemma new_get t : cx_get t (@cx_new Sp V) = None. Proof. done. Qed.
End values.
