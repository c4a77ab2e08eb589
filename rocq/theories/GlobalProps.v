(** Theorems for C141 and C142: the global providers. *)
From Coq Require Import List NArith Bool Arith Lia.
From Verif Require Import GlobalModel.
Import ListNotations.

(** * C141: the global API hands out the provider that was set last *)
Fixpoint set_last (h : list gevent) (p : nat) : nat := match h with [] => p | ESet _ q :: h => set_last h q | EGet _ :: h => set_last h p end.
Fixpoint answers (h : list gevent) (p : nat) : list (nat * nat) :=
  match h with [] => [] | ESet _ q :: h => answers h q | EGet t :: h => (t, p) :: answers h p end.
Lemma set_last_app h h' p : set_last (h ++ h') p = set_last h' (set_last h p).
Proof. revert p. induction h as [|[t|t q] h IH]; intros p; cbn; auto. Qed.
Lemma answers_app h h' p : answers (h ++ h') p = answers h p ++ answers h' (set_last h p).
Proof. revert p. induction h as [|[t|t q] h IH]; intros p; cbn; [reflexivity| |apply IH]. f_equal. apply IH. Qed.
Definition by_thread (t : nat) (h : list gevent) : list gevent := filter (fun e => match e with EGet u | ESet u _ => Nat.eqb u t end) h.
(** The gets and sets that a program makes. *)
Fixpoint wanted (t : nat) (c : gcall) : list gevent :=
  match c with GGet => [EGet t] | GWith body => EGet t :: flat_map (wanted t) body | GSet p => [ESet t p] | GDrop _ => [] end.
Definition still (t : nat) (i : ginstr) : list gevent := match i with GI c => wanted t c | ISetting p => [ESet t p] | _ => [] end.

Lemma still_map t l : flat_map (still t) (map GI l) = flat_map (wanted t) l.
Proof. induction l as [|c l IH]; [reflexivity|]. cbn. f_equal. exact IH. Qed.
Lemma gupd_same {B} (f : nat -> B) t l : gupd f t l t = l.
Proof. unfold gupd. rewrite Nat.eqb_refl. reflexivity. Qed.
Lemma gupd_other {B} (f : nat -> B) t u l : u <> t -> gupd f t l u = f u.
Proof. intros H. unfold gupd. destruct (Nat.eqb_spec u t); [contradiction|reflexivity]. Qed.
Lemma by_thread_app t h h' : by_thread t (h ++ h') = by_thread t h ++ by_thread t h'.
Proof. apply filter_app. Qed.

Theorem C141_last_set : forall inside on_drop held prog s, greach inside on_drop (gstart held prog) s ->
  exists h, g_slot s = set_last h 0 /\ g_obs s = answers h 0 /\
    ((forall p, on_drop p = []) -> forall t, by_thread t h ++ flat_map (still t) (g_code s t) = flat_map (wanted t) (prog t)).
Proof.
  intros inside on_drop held prog s Hr. exists (g_hist s). remember (gstart held prog) as a eqn:E.
  induction Hr as [|a s s' t _ IH Hs]; subst.
  - split; [reflexivity|]. split; [reflexivity|]. intros _ t. cbn. apply still_map.
  - destruct (IH eq_refl) as (H1 & H2 & H3). clear IH.
    assert (Hcase : (g_slot s' = g_slot s /\ g_obs s' = g_obs s /\ g_hist s' = g_hist s /\ ((forall p, on_drop p = []) -> flat_map (still t) (g_code s' t) = flat_map (still t) (g_code s t))) \/
              (g_slot s' = g_slot s /\ g_obs s' = g_obs s ++ [(t, g_slot s)] /\ g_hist s' = g_hist s ++ [EGet t] /\ flat_map (still t) (g_code s t) = EGet t :: flat_map (still t) (g_code s' t)) \/
              (exists p, g_slot s' = p /\ g_obs s' = g_obs s /\ g_hist s' = g_hist s ++ [ESet t p] /\ flat_map (still t) (g_code s t) = ESet t p :: flat_map (still t) (g_code s' t))).
    { unfold gstep in Hs. destruct (g_code s t) as [|i k] eqn:Ec; [discriminate|]. destruct i as [c|p| | |p].
      - destruct c as [|body|p|p].
        + destruct (g_writer s || (0 <? g_waiting s)); [discriminate|]. injection Hs as <-. right; left. cbn. rewrite gupd_same. auto.
        + destruct (g_writer s || (0 <? g_waiting s)); [discriminate|]. injection Hs as <-. right; left. cbn. rewrite gupd_same.
          rewrite flat_map_app, still_map. auto.
        + injection Hs as <-. left. cbn. rewrite gupd_same. auto.
        + injection Hs as <-. left. cbn. rewrite gupd_same. auto.
      - destruct (g_writer s || (0 <? g_readers s)); [discriminate|]. injection Hs as <-. right; right. exists p. cbn. rewrite gupd_same.
        destruct inside; cbn; auto.
      - injection Hs as <-. left. cbn. rewrite gupd_same. auto.
      - injection Hs as <-. left. cbn. rewrite gupd_same. auto.
      - destruct (g_refs s p) as [|[|n]]; injection Hs as <-; left; cbn; rewrite gupd_same; auto.
        repeat split. intros Hd. rewrite (Hd p). reflexivity. }
    assert (Hoth : forall u, u <> t -> g_code s' u = g_code s u).
    { intros u Hu. unfold gstep in Hs. destruct (g_code s t) as [|i k]; [discriminate|].
      repeat match type of Hs with context [match ?x with _ => _ end] => destruct x end; try discriminate; injection Hs as <-; cbn; apply gupd_other; exact Hu. }
    destruct Hcase as [(A & B & C & D)|[(A & B & C & D)|(p & A & B & C & D)]]; rewrite A, B, C.
    + split; [exact H1|]. split; [exact H2|]. intros Hd u. destruct (Nat.eq_dec u t) as [->|Hu]; [rewrite (D Hd)|rewrite (Hoth u Hu)]; apply H3; exact Hd.
    + rewrite set_last_app, answers_app, <- H1, H2. split; [reflexivity|]. split; [reflexivity|].
      intros Hd u. rewrite by_thread_app. destruct (Nat.eq_dec u t) as [->|Hu].
      * cbn. rewrite Nat.eqb_refl. rewrite <- (H3 Hd t), D, <- app_assoc. reflexivity.
      * cbn. destruct (Nat.eqb_spec t u); [congruence|]. rewrite app_nil_r, (Hoth u Hu). apply H3; exact Hd.
    + rewrite set_last_app, answers_app, <- H1, H2. split; [reflexivity|]. split; [rewrite app_nil_r; reflexivity|].
      intros Hd u. rewrite by_thread_app. destruct (Nat.eq_dec u t) as [->|Hu].
      * cbn. rewrite Nat.eqb_refl. rewrite <- (H3 Hd t), D, <- app_assoc. reflexivity.
      * cbn. destruct (Nat.eqb_spec t u); [congruence|]. rewrite app_nil_r, (Hoth u Hu). apply H3; exact Hd.
Qed.
Print Assumptions C141_last_set.

(** ** Nobody waits for ever, if replaced providers do not use the global API while they
    are dropped under the lock and closures do not use it inside the lock. *)
Definition card (P : nat -> Prop) (n : nat) : Prop := exists l, NoDup l /\ (forall t, In t l <-> P t) /\ length l = n.
Lemma card_add P n t (Q : nat -> Prop) : card P n -> ~ P t -> (forall u, Q u <-> u = t \/ P u) -> card Q (S n).
Proof.
  intros (l & Hn & Hi & Hl) Ht HQ. exists (t :: l). split; [constructor; [rewrite Hi; exact Ht|exact Hn]|]. split; [|cbn; congruence].
  intros u. rewrite HQ. cbn. rewrite Hi. split; intros [H|H]; auto.
Qed.
Lemma card_rem P n t (Q : nat -> Prop) : card P n -> P t -> (forall u, Q u <-> u <> t /\ P u) -> card Q (pred n).
Proof.
  intros (l & Hn & Hi & Hl) Ht HQ. apply Hi in Ht. destruct (in_split t l Ht) as (l1 & l2 & ->).
  exists (l1 ++ l2). split; [exact (NoDup_remove_1 _ _ _ Hn)|]. split; [|rewrite <- Hl, !app_length; cbn; lia].
  pose proof (NoDup_remove_2 _ _ _ Hn) as Hnt. intros u. rewrite HQ, <- Hi. rewrite !in_app_iff. cbn. split.
  - intros H. split; [intros ->; apply Hnt; apply in_or_app; exact H|tauto].
  - intros [Hu [H|[H|H]]]; auto. congruence.
Qed.
Lemma card_ext P Q n : card P n -> (forall u, Q u <-> P u) -> card Q n.
Proof. intros (l & Hn & Hi & Hl) H. exists l. split; [exact Hn|]. split; [|exact Hl]. intros t. rewrite H. apply Hi. Qed.
Lemma card_pos P n : card P n -> 0 < n -> exists t, P t.
Proof. intros ([|t l] & _ & Hi & Hl) Hn; cbn in Hl; [lia|]. exists t. apply Hi. left. reflexivity. Qed.

Section progress.
Context (inside : bool) (on_drop : nat -> list gcall).
(** A closure that does not use the global API. *)
Definition gquiet (c : gcall) : Prop := match c with GWith body => body = [] | _ => True end.
Definition well_behaved : Prop := (inside = true -> forall p, on_drop p = []) /\ forall p c, In c (on_drop p) -> gquiet c.
Definition outer (l : list ginstr) : Prop := Forall (fun i => match i with GI c => gquiet c | IDrop _ => True | _ => False end) l.
Inductive phase := Idle | Reading | Waiting | Writing.
Definition phase_of (l : list ginstr) : phase :=
  match l with IRelRead :: _ => Reading | ISetting _ :: _ => Waiting | IRelWrite :: _ => Writing | IDrop _ :: IRelWrite :: _ => Writing | _ => Idle end.
Definition wf (l : list ginstr) : Prop :=
  match l with IRelRead :: k | ISetting _ :: k | IRelWrite :: k => outer k | IDrop _ :: IRelWrite :: k => inside = true /\ outer k | _ => outer l end.
Definition ginv (s : gst) : Prop :=
  (forall t, wf (g_code s t)) /\ card (fun t => phase_of (g_code s t) = Reading) (g_readers s) /\
  card (fun t => phase_of (g_code s t) = Waiting) (g_waiting s) /\
  (g_writer s = true -> exists t, phase_of (g_code s t) = Writing) /\
  (forall t u, phase_of (g_code s t) = Writing -> g_writer s = true /\ (phase_of (g_code s u) = Writing -> u = t)).

Lemma outer_idle l : outer l -> phase_of l = Idle /\ wf l.
Proof.
  intros H. destruct l as [|i l]; [split; [reflexivity|constructor]|]. inversion H as [|? ? Hi Hl]; subst. destruct i as [c|p| | |p]; try destruct Hi; [split; [reflexivity|exact H]|].
  destruct l as [|j l]; [split; [reflexivity|exact H]|]. inversion Hl as [|? ? Hj _]; subst. destruct j; try destruct Hj; split; try reflexivity; exact H.
Qed.
Lemma outer_map l : (forall c, In c l -> gquiet c) -> outer (map GI l).
Proof. intros H. apply Forall_forall. intros i Hi. apply in_map_iff in Hi as (c & <- & Hc). apply H. exact Hc. Qed.

Lemma phase_upd s t l P u : (phase_of (gupd (g_code s) t l u) = P) <-> (u = t /\ phase_of l = P \/ u <> t /\ phase_of (g_code s u) = P).
Proof.
  destruct (Nat.eq_dec u t) as [->|Hu]; [rewrite gupd_same|rewrite (gupd_other _ _ _ _ Hu)]; tauto.
Qed.

(** The effect of a step of thread [t] on the locks: from phase [a] to phase [b]. *)
Lemma ginv_move s t l r w q :
  ginv s -> wf l ->
  (let a := phase_of (g_code s t) in let b := phase_of l in
    (a = b /\ r = g_readers s /\ w = g_writer s /\ q = g_waiting s) \/
    (a = Idle /\ b = Reading /\ r = S (g_readers s) /\ w = g_writer s /\ q = g_waiting s) \/
    (a = Reading /\ b = Idle /\ r = pred (g_readers s) /\ w = g_writer s /\ q = g_waiting s) \/
    (a = Idle /\ b = Waiting /\ r = g_readers s /\ w = g_writer s /\ q = S (g_waiting s)) \/
    (a = Waiting /\ b = Writing /\ r = g_readers s /\ g_writer s = false /\ w = true /\ q = pred (g_waiting s)) \/
    (a = Writing /\ b = Idle /\ r = g_readers s /\ w = false /\ q = g_waiting s)) ->
  forall sl rf dn ob h, ginv (mk_gst sl r w q rf dn ob h (gupd (g_code s) t l)).
Proof.
  intros (Hw & HR & HQ & HW & HU) Hl Hm sl rf dn ob h. unfold ginv. cbn [g_code g_readers g_waiting g_writer].
  split; [intros u; unfold gupd; destruct (Nat.eqb u t); [exact Hl|apply Hw]|].
  cbn zeta in Hm.
  destruct Hm as [(E & -> & -> & ->)|[(A & B & -> & -> & ->)|[(A & B & -> & -> & ->)|[(A & B & -> & -> & ->)|[(A & B & -> & Hwr & -> & ->)|(A & B & -> & -> & ->)]]]]].
  - assert (Hph : forall u P, phase_of (gupd (g_code s) t l u) = P <-> phase_of (g_code s u) = P).
    { intros u P. rewrite phase_upd. destruct (Nat.eq_dec u t) as [->|Hu]; [rewrite <- E|]; tauto. }
    split; [apply (card_ext _ _ _ HR); intros u; apply Hph|]. split; [apply (card_ext _ _ _ HQ); intros u; apply Hph|].
    split; [intros H; destruct (HW H) as [u Hu]; exists u; apply Hph; exact Hu|].
    intros u v Hu. apply Hph in Hu. destruct (HU u v Hu) as [H1 H2]. split; [exact H1|]. intros Hv. apply H2. apply Hph. exact Hv.
  - split; [apply (card_add _ _ t _ HR); [congruence|intros u; rewrite phase_upd, B; split; intros H; [tauto|]; destruct (Nat.eq_dec u t); [tauto|right; tauto]]|].
    split; [apply (card_ext _ _ _ HQ); intros u; rewrite phase_upd, B; split; intros H; [destruct H as [[_ H]|[_ H]]; [discriminate|exact H]|right; split; [intros ->; congruence|exact H]]|].
    split; [intros H; destruct (HW H) as [u Hu]; exists u; apply phase_upd; right; split; [intros ->; congruence|exact Hu]|].
    intros u v Hu. apply phase_upd in Hu. rewrite B in Hu. destruct Hu as [[_ Hu]|[Hu' Hu]]; [discriminate|]. destruct (HU u v Hu) as [H1 H2]. split; [exact H1|].
    intros Hv. apply phase_upd in Hv. rewrite B in Hv. destruct Hv as [[_ Hv]|[_ Hv]]; [discriminate|]. apply H2. exact Hv.
  - split; [apply (card_rem _ _ t _ HR A); intros u; rewrite phase_upd, B; split; intros H; [destruct H as [[_ H]|H]; [discriminate|exact H]|right; exact H]|].
    split; [apply (card_ext _ _ _ HQ); intros u; rewrite phase_upd, B; split; intros H; [destruct H as [[_ H]|[_ H]]; [discriminate|exact H]|right; split; [intros ->; congruence|exact H]]|].
    split; [intros H; destruct (HW H) as [u Hu]; exists u; apply phase_upd; right; split; [intros ->; congruence|exact Hu]|].
    intros u v Hu. apply phase_upd in Hu. rewrite B in Hu. destruct Hu as [[_ Hu]|[Hu' Hu]]; [discriminate|]. destruct (HU u v Hu) as [H1 H2]. split; [exact H1|].
    intros Hv. apply phase_upd in Hv. rewrite B in Hv. destruct Hv as [[_ Hv]|[_ Hv]]; [discriminate|]. apply H2. exact Hv.
  - split; [apply (card_ext _ _ _ HR); intros u; rewrite phase_upd, B; split; intros H; [destruct H as [[_ H]|[_ H]]; [discriminate|exact H]|right; split; [intros ->; congruence|exact H]]|].
    split; [apply (card_add _ _ t _ HQ); [congruence|intros u; rewrite phase_upd, B; split; intros H; [tauto|]; destruct (Nat.eq_dec u t); [tauto|right; tauto]]|].
    split; [intros H; destruct (HW H) as [u Hu]; exists u; apply phase_upd; right; split; [intros ->; congruence|exact Hu]|].
    intros u v Hu. apply phase_upd in Hu. rewrite B in Hu. destruct Hu as [[_ Hu]|[Hu' Hu]]; [discriminate|]. destruct (HU u v Hu) as [H1 H2]. split; [exact H1|].
    intros Hv. apply phase_upd in Hv. rewrite B in Hv. destruct Hv as [[_ Hv]|[_ Hv]]; [discriminate|]. apply H2. exact Hv.
  - split; [apply (card_ext _ _ _ HR); intros u; rewrite phase_upd, B; split; intros H; [destruct H as [[_ H]|[_ H]]; [discriminate|exact H]|right; split; [intros ->; congruence|exact H]]|].
    split; [apply (card_rem _ _ t _ HQ A); intros u; rewrite phase_upd, B; split; intros H; [destruct H as [[_ H]|H]; [discriminate|exact H]|right; exact H]|].
    split; [intros _; exists t; apply phase_upd; left; auto|].
    intros u v Hu. split; [reflexivity|]. intros Hv. apply phase_upd in Hu, Hv. destruct Hu as [[Hu _]|[_ Hu]]; [|destruct (HU u u Hu); congruence].
    destruct Hv as [[Hv _]|[_ Hv]]; [congruence|destruct (HU v v Hv); congruence].
  - split; [apply (card_ext _ _ _ HR); intros u; rewrite phase_upd, B; split; intros H; [destruct H as [[_ H]|[_ H]]; [discriminate|exact H]|right; split; [intros ->; congruence|exact H]]|].
    split; [apply (card_ext _ _ _ HQ); intros u; rewrite phase_upd, B; split; intros H; [destruct H as [[_ H]|[_ H]]; [discriminate|exact H]|right; split; [intros ->; congruence|exact H]]|].
    split; [discriminate|]. intros u v Hu. apply phase_upd in Hu. rewrite B in Hu. destruct Hu as [[_ Hu]|[Hne Hu]]; [discriminate|].
    destruct (HU t u A) as [_ H]. destruct (Hne (H Hu)).
Qed.

Context (Hb : well_behaved).
Lemma ginv_step s t s' : ginv s -> gstep inside on_drop t s = Some s' -> ginv s'.
Proof.
  intros Hi Hs. pose proof (proj1 Hi t) as Ht. unfold gstep in Hs. destruct (g_code s t) as [|i k] eqn:Ec; [discriminate|].
  destruct i as [c|p| | |p].
  - assert (Hk : outer k /\ gquiet c) by (cbn in Ht; inversion Ht; auto). destruct Hk as [Hk Hc]. destruct (outer_idle k Hk) as [Pk Wk].
    destruct c as [|body|p|p].
    + destruct (g_writer s) eqn:W; [discriminate|]. destruct (0 <? g_waiting s) eqn:Q; [discriminate|]. injection Hs as <-. apply Nat.ltb_ge in Q.
      apply ginv_move; [exact Hi|exact Hk|]. cbn zeta. rewrite Ec. right; left. cbn. repeat split; try congruence. lia.
    + destruct (g_writer s) eqn:W; [discriminate|]. destruct (0 <? g_waiting s) eqn:Q; [discriminate|]. injection Hs as <-. apply Nat.ltb_ge in Q. cbn in Hc. subst body.
      apply ginv_move; [exact Hi|exact Hk|]. cbn zeta. rewrite Ec. right; left. cbn. repeat split; try congruence. lia.
    + injection Hs as <-. apply ginv_move; [exact Hi|exact Hk|]. cbn zeta. rewrite Ec. right; right; right; left. cbn. auto.
    + injection Hs as <-. assert (Ho : outer (IDrop p :: k)) by (constructor; [exact I|exact Hk]). destruct (outer_idle _ Ho) as [P1 W1].
      apply ginv_move; [exact Hi|exact W1|]. cbn zeta. rewrite Ec, P1. left. cbn. auto.
  - cbn in Ht. destruct (g_writer s) eqn:W; [discriminate|]. destruct (0 <? g_readers s) eqn:R; [discriminate|]. injection Hs as <-. apply Nat.ltb_ge in R.
    apply ginv_move; [exact Hi| |].
    + destruct inside eqn:Ein; cbn; [split; [exact Ein|exact Ht]|constructor; [exact I|exact Ht]].
    + cbn zeta. rewrite Ec. right; right; right; right; left. destruct inside; cbn; repeat split; try congruence; lia.
  - cbn in Ht. destruct (outer_idle k Ht) as [Pk Wk]. injection Hs as <-. apply ginv_move; [exact Hi|exact Wk|]. cbn zeta. rewrite Ec, Pk. right; right; left. cbn. auto.
  - cbn in Ht. destruct (outer_idle k Ht) as [Pk Wk]. injection Hs as <-. apply ginv_move; [exact Hi|exact Wk|]. cbn zeta. rewrite Ec, Pk. right; right; right; right; right. cbn. auto.
  - assert (Hk : (exists k', k = IRelWrite :: k' /\ inside = true /\ outer k') \/ outer k).
    { destruct k as [|j k']; [right; constructor|]. destruct j; cbn in Ht; try (right; inversion Ht; assumption). left. exists k'. destruct Ht. auto. }
    assert (Hsame : forall l, (outer l \/ l = []) -> wf (l ++ k) -> phase_of (l ++ k) = phase_of (IDrop p :: k) ->
      forall r w q sl rf dn ob h, r = g_readers s -> w = g_writer s -> q = g_waiting s -> ginv (mk_gst sl r w q rf dn ob h (gupd (g_code s) t (l ++ k)))).
    { intros l _ Hw Hp r w q sl rf dn ob h -> -> ->. apply ginv_move; [exact Hi|exact Hw|]. cbn zeta. rewrite Ec. left. auto. }
    destruct Hk as [(k' & -> & Hin & Hk')|Hk].
    + assert (E0 : on_drop p = []) by (apply (proj1 Hb); exact Hin).
      assert (Hg : forall rf dn, ginv (mk_gst (g_slot s) (g_readers s) (g_writer s) (g_waiting s) rf dn (g_obs s) (g_hist s) (gupd (g_code s) t (IRelWrite :: k')))).
      { intros rf dn. apply (Hsame []); try reflexivity; [right; reflexivity|exact Hk']. }
      destruct (g_refs s p) as [|[|n]]; injection Hs as <-; try apply Hg. rewrite E0. apply Hg.
    + destruct (outer_idle k Hk) as [Pk Wk]. assert (P1 : phase_of (IDrop p :: k) = Idle) by (apply outer_idle; constructor; [exact I|exact Hk]).
      assert (Hd : outer (map GI (on_drop p) ++ k)) by (apply Forall_app; split; [apply outer_map; apply (proj2 Hb)|exact Hk]).
      destruct (outer_idle _ Hd) as [Pd Wd].
      destruct (g_refs s p) as [|[|n]]; injection Hs as <-.
      * apply (Hsame []); try reflexivity; [right; reflexivity|exact Wk|cbn [app]; congruence].
      * apply (Hsame (map GI (on_drop p))); try reflexivity; [left; apply outer_map; apply (proj2 Hb)|exact Wd|congruence].
      * apply (Hsame []); try reflexivity; [right; reflexivity|exact Wk|cbn [app]; congruence].
Qed.
Lemma ginv_start held prog : (forall t c, In c (prog t) -> gquiet c) -> ginv (gstart held prog).
Proof.
  intros H. assert (Ho : forall t, outer (map GI (prog t))) by (intros t; apply outer_map; apply H).
  assert (Hp : forall t, phase_of (map GI (prog t)) = Idle) by (intros t; apply outer_idle; apply Ho).
  unfold ginv, gstart. cbn. repeat match goal with |- _ /\ _ => split end.
  - intros t. apply outer_idle. apply Ho.
  - exists []. split; [constructor|]. split; [|reflexivity]. intros t. rewrite Hp. split; [intros []|discriminate].
  - exists []. split; [constructor|]. split; [|reflexivity]. intros t. rewrite Hp. split; [intros []|discriminate].
  - discriminate.
  - intros t u. rewrite Hp. discriminate.
Qed.
End progress.
Theorem C141_no_deadlock : forall inside on_drop held prog s t, well_behaved inside on_drop -> (forall t c, In c (prog t) -> gquiet c) ->
  greach inside on_drop (gstart held prog) s -> g_code s t <> [] -> exists u s', gstep inside on_drop u s = Some s'.
Proof.
  intros inside on_drop held prog s t Hb Hq Hr Ht.
  assert (Hi : ginv inside s).
  { clear t Ht. remember (gstart held prog) as a eqn:E. induction Hr as [|a s s' u _ IH Hs]; [subst; apply ginv_start; exact Hq|].
    apply (ginv_step inside on_drop Hb s u); [apply IH; exact E|exact Hs]. }
  destruct Hi as (Hw & HR & HQ & HW & HU).
  assert (Hact : forall u, phase_of (g_code s u) = Writing \/ phase_of (g_code s u) = Reading -> exists s', gstep inside on_drop u s = Some s').
  { intros u Hu. unfold gstep. destruct (g_code s u) as [|i k]; [destruct Hu; discriminate|].
    destruct i as [c|p| | |p]; try (destruct Hu; discriminate); try (eexists; reflexivity).
    destruct (g_refs s p) as [|[|n]]; eexists; reflexivity. }
  destruct (g_writer s) eqn:W.
  { destruct (HW eq_refl) as [u Hu]. exists u. apply Hact. left. exact Hu. }
  destruct (g_readers s) as [|r] eqn:R.
  2:{ destruct (card_pos _ _ HR) as [u Hu]; [lia|]. exists u. apply Hact. right. exact Hu. }
  destruct (g_waiting s) as [|q] eqn:Q.
  2:{ destruct (card_pos _ _ HQ) as [u Hu]; [lia|]. exists u. unfold gstep. destruct (g_code s u) as [|i k]; [discriminate|].
      destruct i as [c|p| | |p]; try discriminate; [rewrite W, R; eexists; reflexivity|]. destruct k as [|j k]; [discriminate|]. destruct j; discriminate. }
  exists t. unfold gstep. destruct (g_code s t) as [|i k]; [destruct (Ht eq_refl)|].
  destruct i as [c|p| | |p]; [destruct c| | | |destruct (g_refs s p) as [|[|n]]]; rewrite ?W, ?R, ?Q; eexists; reflexivity.
Qed.
Print Assumptions C141_no_deadlock.

(** A tracer provider is dropped after the lock is given back: what it does then with the
    global API is no danger.  Two providers, the first of which asks for the global tracer
    while it is dropped. *)
Definition ex_drop (p : nat) : list gcall := match p with 1 => [GGet] | _ => [] end.
Fixpoint ggo (inside : bool) (od : nat -> list gcall) (l : list nat) (s : gst) : option gst :=
  match l with [] => Some s | t :: l => match gstep inside od t s with Some s => ggo inside od l s | None => None end end.
Lemma ggo_reach inside od l : forall a s s', greach inside od a s -> ggo inside od l s = Some s' -> greach inside od a s'.
Proof.
  induction l as [|t l IH]; intros a s s' Ha Hg; cbn in Hg; [injection Hg as <-; exact Ha|].
  destruct (gstep inside od t s) as [s1|] eqn:E; [|discriminate]. apply (IH a s1 s'); [|exact Hg]. exact (greach_step _ _ a s s1 t Ha E).
Qed.
Example C141_nonvacuous : well_behaved false ex_drop /\ exists s, greach false ex_drop (gstart (fun _ => 0) (fun t => match t with 0 => [GSet 1; GSet 2] | 1 => [GGet] | _ => [] end)) s /\
  (forall t, g_code s t = []) /\ g_slot s = 2 /\ g_obs s = [(1, 1); (0, 2)] /\ g_down s = [0; 1].
Proof.
  split. { split; [discriminate|]. intros [|[|p]] c; cbn; [intros []|intros [<-|[]]; exact I|intros []]. }
  destruct (ggo false ex_drop [0;0;0;0;1;1;0;0;0;0;0;0] (gstart (fun _ => 0) (fun t => match t with 0 => [GSet 1; GSet 2] | 1 => [GGet] | _ => [] end))) as [s|] eqn:E; [|vm_compute in E; discriminate].
  exists s. split; [exact (ggo_reach _ _ _ _ _ _ (greach_refl _ _ _) E)|]. vm_compute in E. injection E as <-. cbn. repeat split. intros [|[|t]]; reflexivity.
Qed.

(** * C142: the global API may be used in callbacks *)
Definition gstuck (inside : bool) (od : nat -> list gcall) (s : gst) : Prop := forall t, gstep inside od t s = None.
(** A meter provider is replaced whose shutdown asks for the global meter; a closure given
    to get_text_map_propagator sets another propagator; a closure uses the global
    propagator again while another thread waits to set it. *)
Theorem C142_usable_in_callbacks_refuted :
  (exists s, greach true ex_drop (gstart (fun _ => 0) (fun t => match t with 0 => [GSet 1; GSet 2] | _ => [] end)) s /\ g_code s 0 <> [] /\ gstuck true ex_drop s) /\
  (exists s, greach true (fun _ => []) (gstart (fun _ => 0) (fun t => match t with 0 => [GWith [GSet 1]] | _ => [] end)) s /\ g_code s 0 <> [] /\ gstuck true (fun _ => []) s) /\
  (exists s, greach true (fun _ => []) (gstart (fun _ => 0) (fun t => match t with 0 => [GWith [GWith []]] | 1 => [GSet 1] | _ => [] end)) s /\ g_code s 0 <> [] /\ gstuck true (fun _ => []) s).
Proof.
  split; [|split].
  - destruct (ggo true ex_drop [0;0;0;0;0;0;0] (gstart (fun _ => 0) (fun t => match t with 0 => [GSet 1; GSet 2] | _ => [] end))) as [s|] eqn:E; [|vm_compute in E; discriminate].
    exists s. split; [exact (ggo_reach _ _ _ _ _ _ (greach_refl _ _ _) E)|]. vm_compute in E. injection E as <-. split; [discriminate|]. intros [|t]; reflexivity.
  - destruct (ggo true (fun _ => []) [0;0] (gstart (fun _ => 0) (fun t => match t with 0 => [GWith [GSet 1]] | _ => [] end))) as [s|] eqn:E; [|vm_compute in E; discriminate].
    exists s. split; [exact (ggo_reach _ _ _ _ _ _ (greach_refl _ _ _) E)|]. vm_compute in E. injection E as <-. split; [discriminate|]. intros [|t]; reflexivity.
  - destruct (ggo true (fun _ => []) [0;1] (gstart (fun _ => 0) (fun t => match t with 0 => [GWith [GWith []]] | 1 => [GSet 1] | _ => [] end))) as [s|] eqn:E; [|vm_compute in E; discriminate].
    exists s. split; [exact (ggo_reach _ _ _ _ _ _ (greach_refl _ _ _) E)|]. vm_compute in E. injection E as <-. split; [discriminate|]. intros [|[|t]]; reflexivity.
Qed.
Print Assumptions C142_usable_in_callbacks_refuted.
(** An application that keeps a clone of the meter provider it replaces is safe: nothing is
    shut down under the lock. *)
Theorem C142_kept_provider_not_dropped : forall inside on_drop p k s t, 1 < g_refs s p -> g_code s t = IDrop p :: k ->
  exists s', gstep inside on_drop t s = Some s' /\ g_down s' = g_down s /\ g_code s' t = k /\ g_refs s' p = pred (g_refs s p).
Proof.
  intros inside on_drop p k s t Hr Hc. unfold gstep. rewrite Hc. destruct (g_refs s p) as [|[|n]] eqn:E; [lia|lia|].
  eexists. split; [reflexivity|]. cbn. rewrite !gupd_same. auto.
Qed.
Print Assumptions C142_kept_provider_not_dropped.

(** * C155: a provider is shut down when it has been replaced and nobody keeps it *)
(** The clones of [p] a call drops, and those a thread has still to drop. *)
Fixpoint gdrops (p : nat) (c : gcall) : nat :=
  match c with
  | GGet | GSet _ => 0
  | GDrop q => if Nat.eqb q p then 1 else 0
  | GWith body => list_sum (map (gdrops p) body)
  end.
Definition owes (p : nat) (i : ginstr) : nat :=
  match i with GI c => gdrops p c | IDrop q => if Nat.eqb q p then 1 else 0 | _ => 0 end.
Definition owed (p : nat) (code : list ginstr) : nat := list_sum (map (owes p) code).
Definition over (n : nat) (f : nat -> nat) : nat := list_sum (map f (seq 0 n)).
Definition bit (b : bool) : nat := if b then 1 else 0.

Lemma owed_app p a b : owed p (a ++ b) = owed p a + owed p b.
Proof. unfold owed. rewrite map_app, list_sum_app. reflexivity. Qed.
Lemma owed_calls p l : owed p (map GI l) = list_sum (map (gdrops p) l).
Proof. unfold owed. rewrite map_map. reflexivity. Qed.

Lemma over_upd n f g t : t < n -> (forall u, u <> t -> g u = f u) -> over n g + f t = over n f + g t.
Proof.
  unfold over. intros Ht H.
  assert (G : forall l, NoDup l -> list_sum (map g l) + (if in_dec Nat.eq_dec t l then f t else 0) = list_sum (map f l) + (if in_dec Nat.eq_dec t l then g t else 0)).
  { induction l as [|u l IH]; intros N; [reflexivity|]. inversion N as [|? ? Hn Hd]; subst. specialize (IH Hd).
    change (list_sum (map g (u :: l))) with (g u + list_sum (map g l)). change (list_sum (map f (u :: l))) with (f u + list_sum (map f l)).
    destruct (Nat.eq_dec u t) as [->|Ne].
    - destruct (in_dec Nat.eq_dec t (t :: l)) as [_|X]; [|destruct X; left; reflexivity]. destruct (in_dec Nat.eq_dec t l) as [X|_]; [contradiction|]. lia.
    - rewrite (H u Ne). destruct (in_dec Nat.eq_dec t (u :: l)) as [[X|X]|X]; destruct (in_dec Nat.eq_dec t l) as [Y|Y]; try contradiction; try congruence; try lia.
      destruct X. right. exact Y. }
  specialize (G (seq 0 n) (seq_NoDup n 0)). destruct (in_dec Nat.eq_dec t (seq 0 n)) as [_|X]; [exact G|]. destruct X. apply in_seq. lia.
Qed.

Section refs.
Context (inside : bool) (on_drop : nat -> list gcall) (held : nat -> nat) (prog : nat -> list gcall) (n : nat) (kept : nat -> nat).
(** [n] threads; [kept p]: the clones of [p] the application never drops; shutting a
    provider down drops no clones; nobody has a clone of the initial provider. *)
Context (threads : forall t, n <= t -> prog t = []).
Context (held_split : forall p, p <> 0 -> held p = kept p + over n (fun t => list_sum (map (gdrops p) (prog t)))).
Context (initial : kept 0 = 0 /\ over n (fun t => list_sum (map (gdrops 0) (prog t))) = 0).
Context (no_drops : forall p q, list_sum (map (gdrops p) (on_drop q)) = 0).

Definition rinv (s : gst) : Prop :=
  (forall t, n <= t -> g_code s t = []) /\
  (forall p, g_refs s p = bit (Nat.eqb (g_slot s) p) + kept p + over n (fun t => owed p (g_code s t))) /\
  (forall p, g_refs s p = 0 -> In p (g_down s) \/ (held p = 0 /\ p <> 0 /\ forall t, ~ In (ESet t p) (g_hist s))).

Lemma rinv_start : rinv (gstart held prog).
Proof.
  split; [|split].
  - intros t Ht. cbn. rewrite threads by exact Ht. reflexivity.
  - intros p. cbn [gstart g_refs g_slot g_code]. unfold gupd. destruct (Nat.eqb p 0) eqn:E.
    + apply Nat.eqb_eq in E. subst p. destruct initial as (-> & I). cbn [Nat.eqb bit]. unfold over in *. erewrite map_ext; [rewrite I; reflexivity|]. intros t. apply owed_calls.
    + apply Nat.eqb_neq in E. rewrite (held_split p E). replace (Nat.eqb 0 p) with false by (symmetry; apply Nat.eqb_neq; congruence). cbn [bit Nat.add]. f_equal.
      unfold over. f_equal. apply map_ext. intros t. symmetry. apply owed_calls.
  - intros p Hp. right. cbn in Hp. unfold gupd in Hp. destruct (Nat.eqb p 0) eqn:E; [discriminate|]. apply Nat.eqb_neq in E. repeat split; auto.
Qed.

Lemma rinv_step s t s' : rinv s -> gstep inside on_drop t s = Some s' ->
  rinv s' /\ (forall p, g_down s' = g_down s ++ [p] -> g_slot s' <> p /\ kept p = 0 /\ forall u, owed p (g_code s' u) = 0).
Proof.
  intros (Hn & Hr & Hd) Hs.
  assert (Ht : t < n). { destruct (Nat.lt_ge_cases t n) as [|Ge]; [assumption|]. unfold gstep in Hs. rewrite (Hn t Ge) in Hs. discriminate. }
  assert (Hcode : forall l u, n <= u -> gupd (g_code s) t l u = []). { intros l u Hu. unfold gupd. destruct (Nat.eqb u t) eqn:E; [apply Nat.eqb_eq in E; lia|]. apply Hn, Hu. }
  assert (Hov : forall p l, over n (fun u => owed p (gupd (g_code s) t l u)) + owed p (g_code s t) = over n (fun u => owed p (g_code s u)) + owed p l).
  { intros p l. pose proof (over_upd n (fun u => owed p (g_code s u)) (fun u => owed p (gupd (g_code s) t l u)) t Ht) as X. cbv beta in X. rewrite gupd_same in X.
    apply X. intros u Hu. unfold gupd. apply Nat.eqb_neq in Hu. rewrite Hu. reflexivity. }
  assert (Hsame : forall sl rd w wt ob hs l, sl = g_slot s -> (forall p, owed p l = owed p (g_code s t)) -> (forall t p, In (ESet t p) hs -> In (ESet t p) (g_hist s)) ->
    s' = mk_gst sl rd w wt (g_refs s) (g_down s) ob hs (gupd (g_code s) t l) ->
    rinv s' /\ (forall p, g_down s' = g_down s ++ [p] -> g_slot s' <> p /\ kept p = 0 /\ forall u, owed p (g_code s' u) = 0)).
  { intros sl rd w wt ob hs l -> Ho Hh ->. cbn. split; [split; [|split]|].
    - apply Hcode.
    - intros p. cbn [g_refs g_slot g_code]. specialize (Hov p l). rewrite Ho in Hov. rewrite Hr. lia.
    - intros p Hp. cbn in Hp |- *. destruct (Hd p Hp) as [X|(X & Y & Z)]; [left; exact X|]. right. repeat split; auto. intros u Hu. apply (Z u), Hh, Hu.
    - intros p Hp. apply (f_equal (@length _)) in Hp. rewrite app_length in Hp. cbn in Hp. lia. }
  unfold gstep in Hs. destruct (g_code s t) as [|i k] eqn:Ec; [discriminate|].
  assert (Hset : forall t u p l, In (ESet t p) (l ++ [EGet u]) -> In (ESet t p) l).
  { intros t0 u p l Hi. apply in_app_or in Hi. destruct Hi as [Hi|[Hi|[]]]; [exact Hi|discriminate]. }
  destruct i as [c|p| | |p].
  - destruct c as [|body|p|p].
    + destruct (g_writer s || (0 <? g_waiting s)); [discriminate|]. injection Hs as <-. eapply Hsame; [reflexivity| | |reflexivity]; [reflexivity|]. intros; eapply Hset; eassumption.
    + destruct (g_writer s || (0 <? g_waiting s)); [discriminate|]. injection Hs as <-. eapply Hsame; [reflexivity| | |reflexivity].
      * intros p. rewrite owed_app, owed_calls. reflexivity.
      * intros; eapply Hset; eassumption.
    + injection Hs as <-. eapply Hsame; [reflexivity| | |reflexivity]; [reflexivity|auto].
    + injection Hs as <-. eapply Hsame; [reflexivity| | |reflexivity]; [reflexivity|auto].
  - destruct (g_writer s || (0 <? g_readers s)); [discriminate|]. injection Hs as <-. cbn. split; [split; [|split]|].
    + apply Hcode.
    + intros q. cbn [g_refs g_slot g_code]. match goal with |- context [gupd (g_code s) t ?l] => specialize (Hov q l) end.
      assert (X : owed q ((if inside then [IDrop (g_slot s); IRelWrite] else [IRelWrite; IDrop (g_slot s)]) ++ k) = bit (Nat.eqb (g_slot s) q) + owed q k).
      { rewrite owed_app. destruct inside; cbn; destruct (Nat.eqb (g_slot s) q); cbn; lia. }
      rewrite X in Hov. change (owed q (ISetting p :: k)) with (owed q k) in Hov. unfold gupd at 1. rewrite (Nat.eqb_sym p q). pose proof (Hr q) as Hq.
      destruct (Nat.eqb q p) eqn:E; [apply Nat.eqb_eq in E; subst q|]; cbn [bit]; lia.
    + intros q Hq. cbn in Hq |- *. unfold gupd in Hq. destruct (Nat.eqb q p) eqn:E; [discriminate|]. destruct (Hd q Hq) as [X|(X & Y & Z)]; [left; exact X|].
      right. repeat split; auto. intros u Hu. apply in_app_or in Hu. destruct Hu as [Hu|[Hu|[]]]; [apply (Z u Hu)|]. injection Hu as _ ->. rewrite Nat.eqb_refl in E. discriminate.
    + intros q Hq. apply (f_equal (@length _)) in Hq. rewrite app_length in Hq. cbn in Hq. lia.
  - injection Hs as <-. eapply Hsame; [reflexivity| | |reflexivity]; [reflexivity|auto].
  - injection Hs as <-. eapply Hsame; [reflexivity| | |reflexivity]; [reflexivity|auto].
  - assert (Hk : forall q, owed q (IDrop p :: k) = bit (Nat.eqb p q) + owed q k) by reflexivity.
    assert (Ho : forall q, owed q (map GI (on_drop p) ++ k) = owed q k) by (intros q; rewrite owed_app, owed_calls, no_drops; reflexivity).
    assert (Hp : 1 <= g_refs s p).
    { rewrite Hr. pose proof (Hov p []) as X. rewrite Hk, Nat.eqb_refl in X. cbn [bit owed map list_sum fold_right] in X. lia. }
    destruct (g_refs s p) as [|[|m]] eqn:Er; [lia| |].
    + injection Hs as <-. assert (Hinv : rinv (mk_gst (g_slot s) (g_readers s) (g_writer s) (g_waiting s) (gupd (g_refs s) p 0) (g_down s ++ [p]) (g_obs s) (g_hist s) (gupd (g_code s) t (map GI (on_drop p) ++ k)))).
      { split; [|split].
        - apply Hcode.
        - intros q. cbn [g_refs g_slot g_code]. specialize (Hov q (map GI (on_drop p) ++ k)). rewrite Hk, Ho in Hov. unfold gupd at 1. pose proof (Hr q) as Hq.
          rewrite (Nat.eqb_sym p q) in Hov. destruct (Nat.eqb q p) eqn:E; [apply Nat.eqb_eq in E; subst q|]; cbn [bit] in Hov; lia.
        - intros q Hq. cbn in Hq |- *. destruct (Nat.eq_dec q p) as [->|Ne]; [left; apply in_or_app; right; left; reflexivity|].
          unfold gupd in Hq. apply Nat.eqb_neq in Ne. rewrite Ne in Hq. destruct (Hd q Hq) as [X|X]; [left; apply in_or_app; left; exact X|right; exact X]. }
      split; [exact Hinv|]. cbn. intros q Hq. apply app_inj_tail in Hq. destruct Hq as (_ & <-).
      destruct Hinv as (I1 & I2 & _). specialize (I2 p). cbn [g_refs g_slot g_code] in I2. rewrite gupd_same in I2.
      split; [intros X; rewrite X, Nat.eqb_refl in I2; cbn [bit] in I2; lia|]. split; [lia|].
      intros u. destruct (Nat.lt_ge_cases u n) as [Lu|Gu]; [|cbn in I1; rewrite I1 by exact Gu; reflexivity].
      assert (Z : over n (fun u => owed p (gupd (g_code s) t (map GI (on_drop p) ++ k) u)) = 0) by lia. unfold over in Z.
      assert (All : forall l, list_sum l = 0 -> forall x, In x l -> x = 0).
      { induction l as [|y l IH]; cbn; intros E x Hx; [destruct Hx|]. fold (list_sum l) in E. destruct Hx as [->|Hx]; [lia|]. apply IH; [lia|exact Hx]. }
      apply (All _ Z). apply (in_map (fun u => owed p (gupd (g_code s) t (map GI (on_drop p) ++ k) u))). apply in_seq. lia.
    + injection Hs as <-. split; [split; [|split]|].
      * apply Hcode.
      * intros q. cbn [g_refs g_slot g_code]. specialize (Hov q k). rewrite Hk in Hov. unfold gupd at 1. pose proof (Hr q) as Hq.
        rewrite (Nat.eqb_sym p q) in Hov. destruct (Nat.eqb q p) eqn:E; [apply Nat.eqb_eq in E; subst q|]; cbn [bit] in Hov; lia.
      * intros q Hq. cbn in Hq |- *. unfold gupd in Hq. destruct (Nat.eqb q p) eqn:E; [discriminate|]. apply Hd, Hq.
      * cbn. intros q Hq. apply (f_equal (@length _)) in Hq. rewrite app_length in Hq. cbn in Hq. lia.
Qed.

Lemma rinv_reach s : greach inside on_drop (gstart held prog) s -> rinv s.
Proof.
  intros Hr. remember (gstart held prog) as a eqn:E. induction Hr as [|a s s' t _ IH Hs]; subst; [apply rinv_start|]. apply (rinv_step s t); auto.
Qed.

(** When a provider is shut down it is not the current one, the application keeps no clone
    of it and nobody is still to drop one. *)
Theorem C155_only_unused_shut_down s t s' p :
  greach inside on_drop (gstart held prog) s -> gstep inside on_drop t s = Some s' -> g_down s' = g_down s ++ [p] ->
  g_slot s' <> p /\ kept p = 0 /\ forall u, owed p (g_code s' u) = 0.
Proof. intros Hr Hs Hp. apply (rinv_step s t s' (rinv_reach s Hr) Hs); exact Hp. Qed.

(** Once all calls have returned, a provider that was set or held, is not the current one
    and of which no clone is kept has been shut down. *)
Theorem C155_unused_shut_down s p :
  greach inside on_drop (gstart held prog) s -> (forall t, g_code s t = []) ->
  g_slot s <> p -> kept p = 0 -> p = 0 \/ 0 < held p \/ (exists t, In (ESet t p) (g_hist s)) -> In p (g_down s).
Proof.
  intros Hr Hc Hs Hk Hu. destruct (rinv_reach s Hr) as (_ & Hrefs & Hd).
  assert (Z : g_refs s p = 0).
  { rewrite Hrefs, Hk. apply Nat.eqb_neq in Hs. rewrite Hs. cbn. unfold over. erewrite map_ext; [|intros t; rewrite Hc; reflexivity]. generalize (seq 0 n). induction l; cbn; auto. }
  destruct (Hd p Z) as [X|(X & Y & W)]; [exact X|]. destruct Hu as [->|[Hu|(t & Hu)]]; [congruence|lia|destruct (W t Hu)].
Qed.
End refs.
Print Assumptions C155_only_unused_shut_down.
Print Assumptions C155_unused_shut_down.

(** Thread 0 sets 1, then 2; provider 1 had a clone that thread 1 drops, provider 2 one that
    is kept. *)
Example C155_nonvacuous :
  let prog t := match t with 0 => [GSet 1; GSet 2] | 1 => [GDrop 1] | _ => [] end in
  let held p := match p with 1 | 2 => 1 | _ => 0 end in let kept p := match p with 2 => 1 | _ => 0 end in
  (forall t, 2 <= t -> prog t = []) /\ (forall p, p <> 0 -> held p = kept p + over 2 (fun t => list_sum (map (gdrops p) (prog t)))) /\
  option_map (fun s => (g_slot s, g_down s)) (ggo false (fun _ => []) [0;0;1;0;0;0;0;0;0;1] (gstart held prog)) = Some (2, [0; 1]).
Proof.
  cbv zeta. split; [intros [|[|t]] H; [lia|lia|reflexivity]|]. split; [intros [|[|[|p]]] H; [congruence|reflexivity|reflexivity|reflexivity]|]. vm_compute. reflexivity.
Qed.
