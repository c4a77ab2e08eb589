(** What the calls of several threads on one span amount to, and the proof that every
    interleaving does just that. *)
From Coq Require Import List NArith ZArith Bool Arith Lia.
From Verif Require Import Str TraceModel SpanModel ActiveModel.
Import ListNotations.

(** * Specification: one call after the other on a span owned by one thread. *)
Section spec.
Context {A : Type}.
(** The action of SpanModel that a call stands for. *)
Definition act (c : call A) : list (action A) :=
  match c with
  | CEvent n t attrs => [Op (AddEvent n t attrs)]
  | CError e t a => [Op (RecordError e t a)]
  | CAttr a => [Op (SetAttribute a)]
  | CAttrs items => [Op (SetAttributes (map (fun i => match i with Item _ _ a => a end) items))]
  | CStatus s => [Op (SetStatus s)]
  | CName n => [Op (UpdateName n)]
  | CEnd t => [End t]
  | CIsRec => []
  end.
(** The part of a list up to the first element that panics. *)
Fixpoint before {B} (p : B -> bool) (l : list B) : list B :=
  match l with [] => [] | b :: l => if p b then [] else b :: before p l end.
Definition item_panics (i : item A) : bool := match i with Item _ p _ => p end.
Definition item_attr (i : item A) : A := match i with Item _ _ a => a end.

Context (scope : str) (down : bool) (procs : list (proc A)).
(** The processors that get an ended span: up to the first that panics, with it. *)
Fixpoint reached (ps : list (proc A)) : list nat :=
  match ps with [] => [] | p :: ps => p_id p :: (if p_panics p then [] else reached ps) end.
(** The span, whether a panic has made it unusable, what processors were given, and what
    is_recording has answered to whom. *)
Definition sstate : Type := span A * bool * list (nat * exported A) * list (nat * bool).
Definition spec_call (st : sstate) (tc : nat * call A) : sstate :=
  let '(s, dead, out, seen) := st in
  if dead then match snd tc with CIsRec => (s, dead, out, seen ++ [(fst tc, false)]) | _ => st end
  else match snd tc with
  | CAttrs items =>
    if is_recording s
    then (span_apply (SetAttributes (map item_attr (before item_panics items))) s, existsb item_panics items, out, seen)
    else st
  | CEnd t =>
    let (s', e) := ensure_ended scope down (Some t) 0 s in
    match e with
    | None => (s', false, out, seen)
    | Some e => (s', existsb p_panics procs, out ++ map (fun p => (p, e)) (reached procs), seen)
    end
  | CIsRec => (s, false, out, seen ++ [(fst tc, is_recording s)])
  | c => (fold_left (fun s a => match a with Op o => span_apply o s | _ => s end) (act c) s, false, out, seen)
  end.
Definition spec_run (s : span A) (cs : list (nat * call A)) : sstate := fold_left spec_call cs (s, false, [], []).
Arguments spec_run : simpl never.

(** The caller's iterators, and the processors, do not use this span. *)
Definition quiet_item (i : item A) : Prop := match i with Item b _ _ => b = [] end.
Definition quiet (c : call A) : Prop := match c with CAttrs items => Forall quiet_item items | _ => True end.
Definition quiet_procs : Prop := Forall (fun p => p_body p = []) procs.
(** Nothing panics. *)
Definition calm_item (i : item A) : Prop := item_panics i = false.
Definition calm (c : call A) : Prop := match c with CAttrs items => Forall calm_item items | _ => True end.
Definition calm_procs : Prop := Forall (fun p => p_panics p = false) procs.

(** * Every interleaving *)
(** Running what is left of a call, undisturbed. *)
Fixpoint finish (t : nat) (l : list (instr A)) (st : sstate) : sstate :=
  let '(s, dead, out, seen) := st in
  match l with
  | [] => st
  | IOp o :: l => finish t l (span_apply o s, dead, out, seen)
  | IObserve :: l => finish t l (s, dead, out, seen ++ [(t, is_recording s)])
  | IHand p e :: l => finish t l (s, dead, out ++ [(p, e)], seen)
  | IPanic :: _ => (s, true, out, seen)
  | _ :: l => finish t l st
  end.
Definition mid (l : list (instr A)) : Prop := Forall (fun i => match i with ICall _ | IUnlock | IEnd _ => False | _ => True end) l.

Lemma mid_call_code rec c : quiet c -> (forall t, c <> CEnd t) -> mid (call_code rec c).
Proof.
  intros Hq Hne. destruct c as [n t attrs|e t a|a|items|s|n|t|]; cbn [call_code]; try (repeat constructor; fail).
  - destruct rec; repeat constructor.
  - destruct rec; [|constructor]. cbn in Hq. induction Hq as [|[b p a] items Hi _ IH]; cbn; [constructor|].
    cbn in Hi; subst b. cbn. apply Forall_app. split; [|apply IH; intros ? ?; discriminate]. apply Forall_app. split; [|repeat constructor].
    destruct p; repeat constructor.
  - destruct (Hne t eq_refl).
Qed.
Lemma mid_end_code e : quiet_procs -> mid (end_code procs e).
Proof.
  intros Hq. destruct e as [e|]; [|constructor]. cbn [end_code]. unfold quiet_procs in Hq. induction Hq as [|p ps Hp _ IH]; cbn; [constructor|].
  rewrite Hp. constructor; [exact I|]. apply Forall_app. split; [|exact IH]. destruct (p_panics p); repeat constructor.
Qed.

Lemma apply_attrs_cons a l (s : span A) : span_apply (SetAttributes (a :: l)) s = span_apply (SetAttributes l) (span_apply (SetAttribute a) s).
Proof. destruct s as [c [d|] li]; reflexivity. Qed.
Lemma apply_attrs_nil (s : span A) : span_apply (SetAttributes []) s = s.
Proof. destruct s as [c [d|] li]; reflexivity. Qed.
Lemma apply_recording o (s : span A) : is_recording (span_apply o s) = is_recording s.
Proof. destruct s as [c [d|] li]; reflexivity. Qed.
Lemma apply_dead o (s : span A) : is_recording s = false -> span_apply o s = s.
Proof. destruct s as [c [d|] li]; [discriminate|reflexivity]. Qed.

Lemma finish_items items : Forall quiet_item items -> forall u s out seen,
  finish u (flat_map item_code items) (s, false, out, seen) = (span_apply (SetAttributes (map item_attr (before item_panics items))) s, existsb item_panics items, out, seen).
Proof.
  induction 1 as [|[b p a] items Hi _ IH]; intros u s out seen; [cbn; rewrite apply_attrs_nil; reflexivity|].
  cbn in Hi; subst b. cbn [flat_map item_code map app before item_panics existsb]. destruct p; cbn [app finish orb map].
  - cbn [map]. rewrite apply_attrs_nil. reflexivity.
  - rewrite IH. cbn [map item_attr]. rewrite apply_attrs_cons. reflexivity.
Qed.
Lemma finish_end e : quiet_procs -> forall u s out seen,
  finish u (end_code procs (Some e)) (s, false, out, seen) = (s, existsb p_panics procs, out ++ map (fun p => (p, e)) (reached procs), seen).
Proof.
  intros Hq. cbn [end_code]. unfold quiet_procs in Hq. induction Hq as [|p ps Hp _ IH]; intros u s out seen; [cbn; rewrite app_nil_r; reflexivity|].
  cbn [flat_map app finish]. rewrite Hp. cbn [map app reached existsb]. destruct (p_panics p); cbn [app finish orb map].
  - reflexivity.
  - rewrite IH. rewrite <- app_assoc. reflexivity.
Qed.

Lemma finish_call u s out seen c : quiet c -> (forall t, c <> CEnd t) ->
  finish u (call_code (is_recording s) c) (s, false, out, seen) = spec_call (s, false, out, seen) (u, c).
Proof.
  intros Hq Hne. destruct c as [n t attrs|e t a|a|items|st0|n|t|]; cbn [call_code spec_call act fold_left fst snd]; try reflexivity.
  - destruct s as [c [d|] li]; reflexivity.
  - destruct (is_recording s); [apply finish_items; exact Hq|reflexivity].
  - destruct (Hne t eq_refl).
Qed.

(** The invariant.  [pend] is what the thread that has the mutex still does. *)
Context (s0 : span A) (prog : nat -> list (call A)).
Definition hist_of (t : nat) (h : list (nat * call A)) : list (call A) := map snd (filter (fun x => Nat.eqb (fst x) t) h).
Definition result_of (s : st A) : sstate := (st_span s, st_poison s, st_out s, st_seen s).
Definition calls_left (s : st A) (t : nat) (cs : list (call A)) : Prop :=
  prog t = hist_of t (st_hist s) ++ cs.
Inductive inv (s : st A) : Prop :=
| inv_free : st_local s = true -> st_lock s = None -> result_of s = spec_run s0 (st_hist s) ->
    (forall t, exists cs, st_code s t = map ICall cs /\ (calls_left s t cs \/ (cs = [] /\ st_poison s = true /\ exists cs', calls_left s t cs'))) -> inv s
| inv_busy t pend k : st_local s = true -> st_lock s = Some t -> st_poison s = false ->
    st_code s t = pend ++ IUnlock :: map ICall k -> calls_left s t k ->
    (mid pend /\ finish t pend (result_of s) = spec_run s0 (st_hist s) \/
     exists ts h, pend = [IEnd ts] /\ st_hist s = h ++ [(t, CEnd ts)] /\ result_of s = spec_run s0 h) ->
    (forall u, u <> t -> exists cs, st_code s u = map ICall cs /\ calls_left s u cs) -> inv s.

Lemma hist_of_app t h h' : hist_of t (h ++ h') = hist_of t h ++ hist_of t h'.
Proof. unfold hist_of. rewrite filter_app, map_app. reflexivity. Qed.
Lemma hist_of_same t c : hist_of t [(t, c)] = [c].
Proof. unfold hist_of. cbn. rewrite Nat.eqb_refl. reflexivity. Qed.
Lemma hist_of_other t u c : u <> t -> hist_of u [(t, c)] = [].
Proof. intros H. unfold hist_of. cbn. destruct (Nat.eqb_spec t u); [congruence|reflexivity]. Qed.
Lemma spec_run_snoc s cs c : spec_run s (cs ++ [c]) = spec_call (spec_run s cs) c.
Proof. unfold spec_run. rewrite fold_left_app. reflexivity. Qed.
Lemma upd_same f t (l : list (instr A)) : upd f t l t = l.
Proof. unfold upd. rewrite Nat.eqb_refl. reflexivity. Qed.
Lemma upd_other f t u (l : list (instr A)) : u <> t -> upd f t l u = f u.
Proof. intros H. unfold upd. destruct (Nat.eqb_spec u t); [contradiction|reflexivity]. Qed.

Context (Hq : forall t c, In c (prog t) -> quiet c) (Hp : quiet_procs).

Lemma inv_start : inv (start true s0 prog).
Proof.
  apply inv_free; try reflexivity. intros t. exists (prog t). split; [reflexivity|]. left. reflexivity.
Qed.
Definition others (s s' : st A) (t : nat) : Prop := st_hist s' = st_hist s /\ forall u, u <> t -> st_code s' u = st_code s u.

Lemma inv_step s t s' : inv s -> step scope down procs t s = Some s' -> inv s'.
Proof.
  intros Hi Hs. destruct Hi as [Hl Hk Hr Hc|t0 pend k Hl Hk Hpo Hct Hcl Hpend Hc].
  - destruct (Hc t) as [cs [Ec Hcs]]. unfold step in Hs. rewrite Ec in Hs. destruct cs as [|c cs]; [discriminate|].
    cbn [map] in Hs. rewrite Hl in Hs. cbn [negb] in Hs. rewrite Hk in Hs.
    destruct Hcs as [Hcs|[E _]]; [|discriminate].
    assert (Hqc : quiet c) by (apply (Hq t); rewrite Hcs; apply in_or_app; right; left; reflexivity).
    assert (Hcs' : forall s1, st_hist s1 = st_hist s ++ [(t, c)] -> calls_left s1 t cs).
    { intros s1 E. unfold calls_left. rewrite E, hist_of_app, hist_of_same, <- app_assoc. exact Hcs. }
    assert (Hoth : forall s1 u cs', st_hist s1 = st_hist s ++ [(t, c)] -> u <> t -> calls_left s u cs' -> calls_left s1 u cs').
    { intros s1 u cs' E Hu H. unfold calls_left. rewrite E, hist_of_app, (hist_of_other t u c Hu), app_nil_r. exact H. }
    destruct (st_poison s) eqn:Po; injection Hs as <-.
    + apply inv_free; try assumption; cbn.
      * unfold result_of. cbn. rewrite spec_run_snoc, <- Hr. unfold result_of. rewrite Po. destruct c; reflexivity.
      * intros u. destruct (Nat.eq_dec u t) as [->|Hu].
        { exists cs. rewrite upd_same. split; [reflexivity|]. left. apply Hcs'. reflexivity. }
        { rewrite (upd_other _ _ _ _ Hu). destruct (Hc u) as [cu [Eu Hcu]]. exists cu. split; [exact Eu|].
          destruct Hcu as [Hcu|[E0 [_ [cu' Hcu]]]]; [left; apply Hoth; [reflexivity|exact Hu|exact Hcu]|right; split; [exact E0|split; [exact Po|]]].
          exists cu'. apply Hoth; [reflexivity|exact Hu|exact Hcu]. }
    + apply (inv_busy _ t (call_code (is_recording (st_span s)) c) cs); try reflexivity; cbn.
      * rewrite upd_same. reflexivity.
      * apply Hcs'. reflexivity.
      * unfold result_of. cbn. rewrite spec_run_snoc, <- Hr. unfold result_of. rewrite Po.
        destruct c as [n ts attrs|e ts a|a|items|st0|n|ts|];
          try (left; split; [apply mid_call_code; [exact Hqc|intros ? ?; discriminate]|apply finish_call; [exact Hqc|intros ? ?; discriminate]]; fail).
        right. exists ts, (st_hist s). split; [reflexivity|]. split; [reflexivity|]. rewrite <- Hr. unfold result_of. rewrite Po. reflexivity.
      * intros u Hu. rewrite (upd_other _ _ _ _ Hu). destruct (Hc u) as [cu [Eu Hcu]]. exists cu. split; [exact Eu|].
        destruct Hcu as [Hcu|[_ [E0 _]]]; [apply Hoth; [reflexivity|exact Hu|exact Hcu]|congruence].
  - destruct (Nat.eq_dec t t0) as [->|Ht].
    2:{ destruct (Hc t Ht) as [cs [Ec _]]. unfold step in Hs. rewrite Ec in Hs. destruct cs as [|c cs]; [discriminate|].
        cbn [map] in Hs. rewrite Hl, Hk in Hs. discriminate. }
    assert (Hrest : forall l, forall u, u <> t0 -> exists cs, upd (st_code s) t0 l u = map ICall cs /\ calls_left s u cs).
    { intros l u Hu. rewrite (upd_other _ _ _ _ Hu). apply Hc. exact Hu. }
    unfold step in Hs. rewrite Hct in Hs. destruct Hpend as [[Hm Hf]|[ts [h [-> [Hh Hr]]]]].
    + destruct pend as [|i pend]; cbn [app] in Hs.
      { injection Hs as <-. apply inv_free; try assumption; try reflexivity. intros u. destruct (Nat.eq_dec u t0) as [->|Hu].
        - exists k. cbn. rewrite upd_same. split; [reflexivity|]. left. exact Hcl.
        - destruct (Hrest (map ICall k) u Hu) as [cu [Eu Hcu]]. exists cu. split; [exact Eu|left; exact Hcu]. }
      inversion Hm as [|? ? Hi' Hm']; subst. destruct i as [c|o| |ts|p e| |]; try destruct Hi'.
      * injection Hs as <-. apply (inv_busy _ t0 pend k); try assumption; cbn; [apply upd_same|left; split; [exact Hm'|exact Hf]|exact (Hrest _)].
      * injection Hs as <-. apply (inv_busy _ t0 pend k); try assumption; cbn; [apply upd_same|left; split; [exact Hm'|exact Hf]|exact (Hrest _)].
      * injection Hs as <-. apply (inv_busy _ t0 pend k); try assumption; cbn; [apply upd_same|left; split; [exact Hm'|exact Hf]|exact (Hrest _)].
      * injection Hs as <-. apply inv_free; try assumption; try reflexivity.
        intros u. cbn. destruct (Nat.eq_dec u t0) as [->|Hu].
        { exists []. rewrite upd_same. split; [reflexivity|]. right. split; [reflexivity|]. split; [reflexivity|]. exists k. exact Hcl. }
        { destruct (Hrest [] u Hu) as [cu [Eu Hcu]]. exists cu. split; [exact Eu|left; exact Hcu]. }
    + cbn [app] in Hs. destruct (ensure_ended scope down (Some ts) 0 (st_span s)) as [sp e] eqn:Ee. injection Hs as <-.
      apply (inv_busy _ t0 (end_code procs e) k); try assumption; cbn.
      * rewrite upd_same. reflexivity.
      * left. split; [apply mid_end_code; exact Hp|]. rewrite Hh, spec_run_snoc, <- Hr. unfold result_of. cbn [st_span st_poison st_out st_seen]. rewrite Hpo.
        cbn [spec_call snd]. rewrite Ee. destruct e as [e|]; [apply finish_end; exact Hp|reflexivity].
      * exact (Hrest _).
Qed.
Lemma inv_reach s : reach scope down procs (start true s0 prog) s -> inv s.
Proof.
  remember (start true s0 prog) as a eqn:E. induction 1 as [|a s s' t _ IH Hs]; [subst; apply inv_start|].
  apply (inv_step s t); [apply IH; exact E|exact Hs].
Qed.
End spec.
