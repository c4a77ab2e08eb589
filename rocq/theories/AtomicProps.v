(** Theorems for C45: the atomic trackers behave like a cell whose operations
    take effect one at a time. *)
From Coq Require Import List Bool Arith ZArith Lia.
From Flocq Require Import Core.
From Flocq Require Import IEEE754.Bits.
From Verif Require Import ProviderModel ProviderProps AtomicModel F64.
Import ListNotations.
Open Scope nat_scope.

(** * The specification: effects applied to a plain number *)
Section spec.
Context {F : Type}.
Variable plus : F -> F -> F.
Variable zero : F.
Definition eff1 (x : F) (e : nat * effect (F := F)) : F :=
  match snd e with EAdd v => plus x v | EStore v => v | EReset _ => zero end.
Definition value (init : F) (l : list (nat * effect)) : F := fold_left eff1 l init.
(** Every reset returned the value just before it. *)
Fixpoint resets_ok (x : F) (l : list (nat * effect)) : Prop :=
  match l with
  | [] => True
  | e :: l => (match snd e with EReset old => old = x | _ => True end) /\ resets_ok (eff1 x e) l
  end.
Lemma value_snoc x l e : value x (l ++ [e]) = eff1 (value x l) e.
Proof. unfold value. rewrite fold_left_app. reflexivity. Qed.
Lemma resets_snoc l : forall x e, resets_ok x (l ++ [e]) <-> resets_ok x l /\ (match snd e with EReset old => old = value x l | _ => True end).
Proof.
  induction l as [|y l IH]; intros x e; cbn; [tauto|]. rewrite IH. cbn. tauto.
Qed.
End spec.

Section proofs.
Context {F B : Type}.
Variable beq : forall x y : B, {x = y} + {x <> y}.
Variable to_bits : F -> B.
Variable of_bits : B -> F.
Variable plus : F -> F -> F.
Variable zero init : F.
Hypothesis roundtrip : forall x, of_bits (to_bits x) = x.
Notation cell := (@cell F B).
Notation step := (step beq to_bits of_bits plus zero).
Notation run := (run beq to_bits of_bits plus zero).

Definition eff_of (o : op) (ret : option F) (e : effect) : Prop :=
  match o, e with
  | Add v, EAdd v' => v = v' /\ ret = None
  | Store v, EStore v' => v = v' /\ ret = None
  | Reset, EReset old => ret = Some old
  | _, _ => False
  end.
Definition pc_ok (s : cell) (i : nat) (c : call) : Prop :=
  match k_pc c with
  | PStart => ~ In i (map fst (log s)) /\ ~ In i (map (fun r => fst (fst r)) (reads s))
  | PCas cur seen fails => ~ In i (map fst (log s)) /\ ~ In i (map (fun r => fst (fst r)) (reads s)) /\ (exists v, k_op c = Add v) /\
      fails <= seen <= length (log s) /\ (length (log s) = seen -> bits s = cur)
  | PDone ret => match k_op c with
                 | Get => exists n x, In (i, n, x) (reads s) /\ ret = Some x /\ ~ In i (map fst (log s))
                 | o => exists e, In (i, e) (log s) /\ eff_of o ret e
                 end
  end.
Record inv (s : cell) : Prop := mk_inv {
  iv_val : of_bits (bits s) = value plus zero init (log s);
  iv_res : resets_ok plus zero init (log s);
  iv_read : forall i n x, In (i, n, x) (reads s) -> n <= length (log s) /\ x = value plus zero init (firstn n (log s));
  iv_nodup : NoDup (map fst (log s));
  iv_lt : forall i, In i (map fst (log s)) -> i < length (calls s);
  iv_ltr : forall i, In i (map (fun r => fst (fst r)) (reads s)) -> i < length (calls s);
  iv_pc : forall i c, nth_error (calls s) i = Some c -> pc_ok s i c }.
Lemma inv_new : inv (c_new to_bits init).
Proof. split; cbn; auto; try (intros; contradiction). - constructor. - intros [|i] c H; discriminate. Qed.

Lemma pc_log s i c j e b calls' : pc_ok s i c -> i <> j -> pc_ok (mk_cell b calls' (log s ++ [(j, e)]) (reads s)) i c.
Proof.
  unfold pc_ok. cbn. intros H Hn. assert (Hin : ~ In i (map fst (log s)) -> ~ In i (map fst (log s ++ [(j, e)]))).
  { rewrite map_app, in_app_iff. cbn. intros H1 [H2|[H2|[]]]; [auto|congruence]. }
  destruct (k_pc c) as [|cur seen fails|ret].
  - tauto.
  - destruct H as (H1 & H2 & H3 & H4 & H5). rewrite app_length. cbn. repeat split; auto; lia.
  - destruct (k_op c); try (destruct H as (e' & H1 & H2); exists e'; rewrite in_app_iff; auto).
    destruct H as (n & x & H1 & H2 & H3). exists n, x. auto.
Qed.
Lemma pc_read s i c j n x b calls' : pc_ok s i c -> i <> j -> bits s = b -> pc_ok (mk_cell b calls' (log s) (reads s ++ [(j, n, x)])) i c.
Proof.
  unfold pc_ok. cbn. intros H Hn <-. assert (Hin : ~ In i (map (fun r => fst (fst r)) (reads s)) -> ~ In i (map (fun r => fst (fst r)) (reads s ++ [(j, n, x)]))).
  { rewrite map_app, in_app_iff. cbn. intros H1 [H2|[H2|[]]]; [auto|congruence]. }
  destruct (k_pc c) as [|cur seen fails|ret]; [tauto| |].
  - destruct H as (H1 & H2 & H3 & H4 & H5). repeat split; auto; lia.
  - destruct (k_op c); try exact H. destruct H as (n' & x' & H1 & H2 & H3). exists n', x'. rewrite in_app_iff. auto.
Qed.
Lemma pc_calls s i c calls' : pc_ok s i c -> pc_ok (mk_cell (bits s) calls' (log s) (reads s)) i c.
Proof. unfold pc_ok. cbn. auto. Qed.

(** A call that appends an effect to the log. *)
Lemma inv_effect s i c e ret b : inv s -> nth_error (calls s) i = Some c -> ~ In i (map fst (log s)) ->
  (match k_op c with Get => False | o => eff_of o ret e end) ->
  of_bits b = eff1 plus zero (value plus zero init (log s)) (i, e) ->
  (match e with EReset old => old = value plus zero init (log s) | _ => True end) ->
  inv (put i (mk_call (k_op c) (PDone ret)) s b (log s ++ [(i, e)]) (reads s)).
Proof.
  intros I Hc Hni He Hb Hr. unfold put. split; cbn [bits calls log reads].
  - rewrite value_snoc. exact Hb.
  - apply resets_snoc. split; [apply I|exact Hr].
  - intros j n x Hin. destruct (iv_read _ I _ _ _ Hin) as [H1 H2]. rewrite app_length. split; [lia|]. rewrite firstn_app. replace (n - length (log s)) with 0 by lia. cbn. rewrite app_nil_r. exact H2.
  - rewrite map_app. cbn. pose proof (Add_app i (map fst (log s)) []) as X. rewrite app_nil_r in X. apply (proj2 (NoDup_Add X)). split; [apply I|exact Hni].
  - intros j. rewrite set_nth_length, map_app, in_app_iff. cbn. intros [H|[H|[]]]; [apply (iv_lt _ I), H|subst j]. apply nth_error_Some. congruence.
  - intros j. rewrite set_nth_length. apply (iv_ltr _ I).
  - intros j c' Hj. rewrite nth_set_nth in Hj. destruct (Nat.eqb_spec i j) as [<-|Hn].
    + rewrite Hc in Hj. injection Hj as <-. unfold pc_ok. cbn. destruct (k_op c); try contradiction; exists e; (split; [apply in_or_app; right; left; reflexivity|exact He]).
    + apply pc_log; [apply (iv_pc _ I), Hj|congruence].
Qed.
(** A call that only moves. *)
Lemma inv_move s i c p : inv s -> nth_error (calls s) i = Some c ->
  pc_ok s i (mk_call (k_op c) p) -> inv (put i (mk_call (k_op c) p) s (bits s) (log s) (reads s)).
Proof.
  intros I Hc Hp. unfold put. split; cbn [bits calls log reads]; try apply I.
  - intros j. rewrite set_nth_length. apply I.
  - intros j. rewrite set_nth_length. apply I.
  - intros j c' Hj. rewrite nth_set_nth in Hj. destruct (Nat.eqb_spec i j) as [<-|Hn].
    + rewrite Hc in Hj. injection Hj as <-. exact Hp.
    + apply pc_calls, (iv_pc _ I), Hj.
Qed.
Lemma inv_step s a s' : inv s -> step s a = Some s' -> inv s'.
Proof.
  intros I H. destruct a as [o|i]; cbn [AtomicModel.step] in H.
  - injection H as <-. split; cbn [bits calls log reads]; try apply I.
    + intros j Hj. rewrite app_length. pose proof (iv_lt _ I _ Hj). lia.
    + intros j Hj. rewrite app_length. pose proof (iv_ltr _ I _ Hj). lia.
    + intros j c Hj. apply nth_snoc in Hj. destruct Hj as [Hj|[-> ->]]; [apply pc_calls, (iv_pc _ I), Hj|].
      unfold pc_ok. cbn. split; intros X; [apply (iv_lt _ I) in X|apply (iv_ltr _ I) in X]; lia.
  - destruct (nth_error (calls s) i) as [c|] eqn:Hc; [|discriminate]. pose proof (iv_pc _ I _ _ Hc) as P. unfold pc_ok in P.
    destruct (k_op c) as [v|v| |] eqn:Eo; destruct (k_pc c) as [|cur seen fails|ret] eqn:Ep; try discriminate.
    + injection H as <-. rewrite <- Eo. apply inv_move; auto. unfold pc_ok. cbn. destruct P. repeat split; eauto; lia.
    + destruct P as (P1 & P2 & P3 & P4 & P5). destruct (beq (bits s) cur) as [E|E].
      * injection H as <-. rewrite <- Eo. apply inv_effect; auto; try (rewrite Eo; cbn; auto; fail). rewrite roundtrip. cbn. rewrite <- (iv_val _ I), E. reflexivity.
      * injection H as <-. rewrite <- Eo. apply inv_move; auto. unfold pc_ok. cbn. repeat split; eauto; try lia. destruct (Nat.eq_dec (length (log s)) seen); [exfalso; auto|lia].
    + injection H as <-. rewrite <- Eo. destruct P. apply inv_effect; auto; try (rewrite Eo; cbn; auto; fail).
    + injection H as <-. unfold put. destruct P as [P1 P2]. split; cbn [bits calls log reads]; try apply I.
      * intros j n x Hin. apply in_app_or in Hin. destruct Hin as [Hin|[E|[]]]; [apply (iv_read _ I _ _ _ Hin)|]. injection E as <- <- <-. split; [lia|]. rewrite firstn_all. apply I.
      * intros j. rewrite set_nth_length. apply I.
      * intros j. rewrite set_nth_length, map_app, in_app_iff. cbn. intros [Hj|[Hj|[]]]; [apply (iv_ltr _ I), Hj|subst j]. apply nth_error_Some. congruence.
      * intros j c' Hj. rewrite nth_set_nth in Hj. destruct (Nat.eqb_spec i j) as [<-|Hn].
        -- rewrite Hc in Hj. injection Hj as <-. unfold pc_ok. cbn. do 2 eexists. split; [apply in_or_app; right; left; reflexivity|]. auto.
        -- apply pc_read; [apply (iv_pc _ I), Hj|congruence|reflexivity].
    + injection H as <-. rewrite <- Eo. destruct P. apply inv_effect; auto; try (rewrite Eo; cbn; auto; fail); try apply I.
Qed.
Lemma inv_run l : forall s s', inv s -> run s l = Some s' -> inv s'.
Proof. induction l as [|a l IH]; intros s s' I H; cbn in H; [congruence|]. destruct (step s a) as [s1|] eqn:E; [|discriminate]. eapply IH; [|exact H]. eapply inv_step; eauto. Qed.
End proofs.

(** The value of the cell is what the effects of the calls amount to when applied
    one after the other; each call has at most one effect; a completed call has
    exactly its own effect and returned the value at its turn. *)
Theorem C45_linearizable : forall F B (beq : forall x y : B, {x = y} + {x <> y}) to_bits of_bits plus zero (init : F) l s,
  (forall x : F, of_bits (to_bits x) = x) -> run beq to_bits of_bits plus zero (c_new to_bits init) l = Some s ->
  of_bits (bits s) = value plus zero init (log s) /\
  NoDup (map fst (log s)) /\ resets_ok plus zero init (log s) /\
  (forall i c ret, nth_error (calls s) i = Some c -> k_pc c = PDone ret ->
     match k_op c with
     | Add v => ret = None /\ In (i, EAdd v) (log s)
     | Store v => ret = None /\ In (i, EStore v) (log s)
     | Reset => exists old, ret = Some old /\ In (i, EReset old) (log s)
     | Get => exists n, n <= length (log s) /\ ret = Some (value plus zero init (firstn n (log s)))
     end) /\
  (forall i e, In (i, e) (log s) -> exists c ret, nth_error (calls s) i = Some c /\ k_pc c = PDone ret /\ eff_of (k_op c) ret e).
Proof.
  intros F B beq to_bits of_bits plus zero init l s Hrt H.
  pose proof (inv_run beq to_bits of_bits plus zero init Hrt l _ _ (inv_new to_bits of_bits plus zero init Hrt) H) as I.
  split; [apply I|]. split; [apply I|]. split; [apply I|]. split.
  - intros i c ret Hc Hp. pose proof (iv_pc _ _ _ _ _ I _ _ Hc) as P. unfold pc_ok in P. rewrite Hp in P. destruct (k_op c).
    + destruct P as (e & P1 & P2). destruct e; cbn in P2; try contradiction. destruct P2 as [-> ->]. auto.
    + destruct P as (e & P1 & P2). destruct e; cbn in P2; try contradiction. destruct P2 as [-> ->]. auto.
    + destruct P as (n & x & P1 & -> & _). destruct (iv_read _ _ _ _ _ I _ _ _ P1) as [P2 ->]. eauto.
    + destruct P as (e & P1 & P2). destruct e; cbn in P2; try contradiction. eauto.
  - intros i e Hin. assert (Hi : In i (map fst (log s))) by (apply in_map_iff; exists (i, e); auto).
    pose proof (iv_lt _ _ _ _ _ I _ Hi) as Hlt. destruct (nth_error (calls s) i) as [c|] eqn:Hc; [|apply nth_error_None in Hc; lia].
    pose proof (iv_pc _ _ _ _ _ I _ _ Hc) as P. unfold pc_ok in P. destruct (k_pc c) as [| |ret] eqn:Ep; [tauto|tauto|]. exists c, ret. split; [reflexivity|]. split; [exact Ep|].
    assert (Hu : forall e', In (i, e') (log s) -> e' = e).
    { intros e' He'. pose proof (iv_nodup _ _ _ _ _ I) as N. clear -N Hin He'. induction (log s) as [|[j x] l IH]; [destruct Hin|]. cbn in N. inversion N as [|? ? N1 N2]; subst.
      destruct Hin as [E|Hin], He' as [E'|He'].
      - congruence.
      - injection E as -> ->. exfalso. apply N1, in_map_iff. exists (i, e'). auto.
      - injection E' as -> ->. exfalso. apply N1, in_map_iff. exists (i, e). auto.
      - apply IH; auto. }
    destruct (k_op c) eqn:Eo; try (destruct P as (e' & P1 & P2); rewrite (Hu e' P1) in P2; exact P2). destruct P as (n & x & _ & _ & P). contradiction.
Qed.
Print Assumptions C45_linearizable.

(** Effects are only ever appended, so a call that had returned before another
    was made comes first. *)
Theorem C45_real_time : forall F B (beq : forall x y : B, {x = y} + {x <> y}) (to_bits : F -> B) of_bits plus zero s l s',
  run beq to_bits of_bits plus zero s l = Some s' -> exists x, log s' = log s ++ x /\ forall i e, In (i, e) x -> In (Step i) l.
Proof.
  intros F B beq to_bits of_bits plus zero s l. revert s. induction l as [|a l IH]; intros s s' H; cbn in H.
  - injection H as <-. exists []. rewrite app_nil_r. split; [reflexivity|intros ? ? []].
  - destruct (step _ _ _ _ _ s a) as [s1|] eqn:E; [|discriminate]. destruct (IH _ _ H) as (x & -> & Hx).
    assert (G : exists y, log s1 = log s ++ y /\ forall i e, In (i, e) y -> a = Step i).
    { destruct a as [o|i]; cbn in E; [injection E as <-; exists []; rewrite app_nil_r; split; [reflexivity|intros ? ? []]|].
      destruct (nth_error (calls s) i) as [c|]; [|discriminate]. destruct (k_op c), (k_pc c); try discriminate; try (destruct (beq (bits s) cur));
        injection E as <-; cbn [log put]; first [exists []; rewrite app_nil_r; split; [reflexivity|intros ? ? []] | eexists; split; [reflexivity|intros ? ? [E|[]]; injection E as <- _; reflexivity]]. }
    destruct G as (y & -> & Hy). exists (y ++ x). rewrite app_assoc. split; [reflexivity|]. intros i e Hin. apply in_app_or in Hin. destruct Hin as [Hin|Hin]; [left; eapply Hy, Hin|right; eapply Hx, Hin].
Qed.
Print Assumptions C45_real_time.

(** Additions only: whatever the schedule, the value is the initial one plus all
    completed additions, in the order of the log; with reads, nothing changes. *)
Theorem C45_sum_of_additions : forall F B (beq : forall x y : B, {x = y} + {x <> y}) to_bits of_bits plus zero (init : F) l s,
  (forall x : F, of_bits (to_bits x) = x) -> run beq to_bits of_bits plus zero (c_new to_bits init) l = Some s ->
  (forall c, In c (calls s) -> match k_op c with Add _ | Get => True | _ => False end) ->
  exists vs, of_bits (bits s) = fold_left plus (map snd vs) init /\ NoDup (map fst vs) /\
    forall i v, In (i, v) vs <-> (exists c, nth_error (calls s) i = Some c /\ k_op c = Add v /\ k_pc c = PDone None).
Proof.
  intros F B beq to_bits of_bits plus zero init l s Hrt H Ho. destruct (C45_linearizable _ _ _ _ _ _ _ _ _ _ Hrt H) as (H1 & H2 & _ & H3 & H4).
  exists (flat_map (fun e => match snd e with EAdd v => [(fst e, v)] | _ => [] end) (log s)).
  assert (Hall : forall i e, In (i, e) (log s) -> exists v, e = EAdd v).
  { intros i e Hin. destruct (H4 _ _ Hin) as (c & ret & C1 & _ & C3). pose proof (Ho c (nth_error_In _ _ C1)) as O. destruct (k_op c), e; cbn in C3; try contradiction. eauto. }
  split; [|split].
  - rewrite H1. unfold value. clear -Hall. revert init. induction (log s) as [|[i e] l IH]; intros init; [reflexivity|]. destruct (Hall i e (or_introl eq_refl)) as [v ->]. cbn. apply IH. intros j e Hin. apply (Hall j e). right. exact Hin.
  - assert (E : map fst (flat_map (fun e : nat * effect => match snd e with EAdd v => [(fst e, v)] | _ => [] end) (log s)) = map fst (log s)); [|rewrite E; exact H2].
    clear -Hall. induction (log s) as [|[i e] l IH]; [reflexivity|]. destruct (Hall i e (or_introl eq_refl)) as [v ->]. cbn. f_equal. apply IH. intros j e Hin. apply (Hall j e). right. exact Hin.
  - intros i v. rewrite in_flat_map. split.
    + intros ([j e] & Hin & He). destruct e; cbn in He; try destruct He as [He|[]]; try contradiction. injection He as -> ->. destruct (H4 _ _ Hin) as (c & ret & C1 & C2 & C3). exists c. destruct (k_op c) eqn:Eo; cbn in C3; try contradiction. destruct C3 as [-> ->]. auto.
    + intros (c & C1 & C2 & C3). pose proof (H3 _ _ _ C1 C3) as P. rewrite C2 in P. exists (i, EAdd v). split; [apply P|left; reflexivity].
Qed.
Print Assumptions C45_sum_of_additions.

(** The loop is lock-free: a call can always step, and each failed attempt is paid
    for by an effect of another call in between, so a call fails at most as often
    as there were effects. *)
Theorem C45_lock_free : forall F B (beq : forall x y : B, {x = y} + {x <> y}) to_bits of_bits plus zero (init : F) l s i c,
  (forall x : F, of_bits (to_bits x) = x) -> run beq to_bits of_bits plus zero (c_new to_bits init) l = Some s -> nth_error (calls s) i = Some c ->
  ((forall ret, k_pc c <> PDone ret) -> step beq to_bits of_bits plus zero s (Step i) <> None) /\
  (forall cur seen fails, k_pc c = PCas cur seen fails -> fails <= seen <= length (log s) /\
     (* nothing happened since: the attempt succeeds *)
     (length (log s) = seen -> bits s = cur)).
Proof.
  intros F B beq to_bits of_bits plus zero init l s i c Hrt H Hc.
  pose proof (inv_run beq to_bits of_bits plus zero init Hrt l _ _ (inv_new to_bits of_bits plus zero init Hrt) H) as I. pose proof (iv_pc _ _ _ _ _ I _ _ Hc) as P. unfold pc_ok in P. split.
  - intros Hd. cbn. rewrite Hc. destruct (k_pc c) as [|cur seen fails|ret] eqn:Ep; [destruct (k_op c); discriminate| |exfalso; eapply Hd; reflexivity].
    destruct P as (_ & _ & (v & ->) & _). destruct (beq _ _); discriminate.
  - intros cur seen fails Ep. rewrite Ep in P. tauto.
Qed.
Print Assumptions C45_lock_free.

(** The premise holds for f64: from_bits undoes to_bits. *)
Theorem C45_f64_bits : forall x, f64_from_bits (f64_bits x) = x.
Proof. intros x. unfold f64_from_bits, f64_bits. exact (Bits.binary_float_of_bits_of_binary_float 52 11 eq_refl eq_refl eq_refl x). Qed.
Print Assumptions C45_f64_bits.

(** Two threads add concurrently with a reset; one attempt fails and is retried. *)
Definition ex_acts : list (act (F := Z)) := [Invoke (Add 5%Z); Invoke (Add 7%Z); Step 0; Step 1; Step 0; Step 1; Step 1; Invoke Reset; Invoke (Add 1%Z); Step 3; Step 2; Step 3; Step 3; Invoke Get; Step 4].
Example C45_nonvacuous : exists s, run Z.eq_dec (fun z => z) (fun z => z) Z.add 0%Z (c_new (fun z => z) 0%Z) ex_acts = Some s /\
  log s = [(0, EAdd 5%Z); (1, EAdd 7%Z); (2, EReset 12%Z); (3, EAdd 1%Z)] /\ reads s = [(4, 4, 1%Z)] /\ bits s = 1%Z.
Proof. vm_compute. eexists. repeat split. Qed.
Example C45_nonvacuous_fail : exists s c, run Z.eq_dec (fun z => z) (fun z => z) Z.add 0%Z (c_new (fun z => z) 0%Z) (firstn 6 ex_acts) = Some s /\
  nth_error (calls s) 1 = Some c /\ k_pc c = PCas 5%Z 1 1.
Proof. vm_compute. do 2 eexists. repeat split. Qed.
