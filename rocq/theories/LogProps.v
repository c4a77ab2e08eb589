(** Theorems for C31, C35 and C39-C41: log records, the logger, and the
    processors that export on the calling thread. *)
From Coq Require Import String List Arith NArith ZArith Bool Lia.
From Coq Require Import ZifyBool ZifyNat.
From Verif Require Import Str ContextModel TraceModel SamplerModel SpanModel ProviderModel BatchModel LogModel ProviderProps BatchProofs BatchProps.
Import ListNotations.

(** * C31, C40: simple processors *)

(** What each call in a schedule asks for, in the order in which calls begin:
    an export of a wanted or unwanted item, or shutdown. *)
Fixpoint asked (acts : list saction) : list (option bool) :=
  match acts with
  | [] => []
  | SCall w :: acts => Some w :: asked acts
  | SShutdown :: acts => None :: asked acts
  | SStep _ :: acts => asked acts
  end.
Definition exports (s : sstate) : list nat :=
  flat_map (fun x => match x with XExport i => [i] | XShutdown => [] end) (s_log s).
Definition shutdowns (s : sstate) : nat :=
  List.length (filter (fun x => match x with XShutdown => true | _ => false end) (s_log s)).

Definition call_ok (checks : bool) (c : scall) (w : option bool) : Prop :=
  match c with
  | SCheck b => w = Some b
  | SExport => w = Some true
  | SDone true => w = Some true
  | SDone false => exists b, w = Some b /\ (checks = false -> b = false)
  | DStore | DExporter | DDone => w = None
  end.
Definition is_ddone (c : scall) : bool := match c with DDone => true | _ => false end.
Record sinv (checks : bool) (s : sstate) (ws : list (option bool)) : Prop := mk_si {
  si_len : List.length (s_calls s) = List.length ws;
  si_call : forall i c, nth_error (s_calls s) i = Some c -> exists w, nth_error ws i = Some w /\ call_ok checks c w;
  si_nodup : NoDup (exports s);
  si_in : forall i, In i (exports s) <-> nth_error (s_calls s) i = Some (SDone true);
  si_shut : shutdowns s = cnt is_ddone (s_calls s) }.

Lemma sinv_step checks s ws a s' : sinv checks s ws -> sstep checks s a = Some s' ->
  sinv checks s' (ws ++ asked [a]).
Proof.
  intros [Hl Hc Hn Hi Hs] H. destruct a as [w| |i]; cbn in H.
  1,2: injection H as <-.
  - split; cbn [s_calls s_log s_flag asked].
    + rewrite !app_length, Hl. reflexivity.
    + intros i c H. destruct (nth_snoc _ _ _ _ H) as [H'|[-> ->]].
      * destruct (Hc _ _ H') as (x & Hx & Hk). exists x. split; [apply nth_snoc_old, Hx|exact Hk].
      * exists (Some w). split; [rewrite Hl; apply nth_snoc_new|reflexivity].
    + exact Hn.
    + intros i. change (In i (exports s) <-> nth_error (s_calls s ++ [SCheck w]) i = Some (SDone true)). rewrite Hi. split; [apply nth_snoc_old|].
      intros H. destruct (nth_snoc _ _ _ _ H) as [H'|[-> H']]; [exact H'|discriminate].
    + change (shutdowns s = cnt is_ddone (s_calls s ++ [SCheck w])). rewrite cnt_app, Hs. cbn. lia.
  - split; cbn [s_calls s_log s_flag asked].
    + rewrite !app_length, Hl. reflexivity.
    + intros i c H. destruct (nth_snoc _ _ _ _ H) as [H'|[-> ->]].
      * destruct (Hc _ _ H') as (x & Hx & Hk). exists x. split; [apply nth_snoc_old, Hx|exact Hk].
      * exists None. split; [rewrite Hl; apply nth_snoc_new|destruct checks; reflexivity].
    + exact Hn.
    + intros i. change (In i (exports s) <-> nth_error (s_calls s ++ [if checks then DStore else DExporter]) i = Some (SDone true)). rewrite Hi. split; [apply nth_snoc_old|].
      intros H. destruct (nth_snoc _ _ _ _ H) as [H'|[-> H']]; [exact H'|destruct checks; discriminate].
    + change (shutdowns s = cnt is_ddone (s_calls s ++ [if checks then DStore else DExporter])). rewrite cnt_app, Hs. destruct checks; cbn; lia.
  - cbn [asked]. rewrite app_nil_r. destruct (nth_error (s_calls s) i) as [c|] eqn:E; [|discriminate].
    destruct (Hc i c E) as (w & Hw & Hk).
    assert (Hgen : forall c' l (f : bool), call_ok checks c' w -> 
       s' = mk_s f (set_nth i c' (s_calls s)) (s_log s ++ l) ->
       ((l = [] /\ c' <> SDone true /\ c' <> DDone /\ c <> SDone true /\ c <> DDone) \/ 
        (l = [XExport i] /\ c' = SDone true /\ c <> SDone true /\ c <> DDone) \/ 
        (l = [XShutdown] /\ c' = DDone /\ c <> SDone true /\ c <> DDone)) -> sinv checks s' ws).
    { clear H. intros c' l f Hk' -> Hcase.
      assert (Hex : exports (mk_s f (set_nth i c' (s_calls s)) (s_log s ++ l)) = exports s ++ flat_map (fun x => match x with XExport i => [i] | XShutdown => [] end) l).
      { unfold exports. cbn [s_log]. apply flat_map_app. }
      assert (Hni : c <> SDone true -> ~ In i (exports s)).
      { intros Hne Hin. apply Hi in Hin. congruence. }
      split.
      - cbn [s_calls]. rewrite set_nth_length. exact Hl.
      - cbn [s_calls]. intros k x Hx. rewrite nth_set_nth in Hx. destruct (Nat.eqb_spec i k) as [<-|]; [|eauto].
        rewrite E in Hx. injection Hx as <-. eauto.
      - rewrite Hex. destruct Hcase as [(-> & _)|[(-> & _ & Hc1 & _)|(-> & _)]]; cbn [flat_map app]; rewrite ?app_nil_r; auto.
        pose proof (Add_app i (exports s) []) as X. rewrite app_nil_r in X. apply (proj2 (NoDup_Add X)). auto.
      - intros k. rewrite Hex, in_app_iff, Hi. cbn [s_calls]. rewrite nth_set_nth.
        destruct Hcase as [(-> & H1 & H2 & H3 & H4)|[(-> & H1 & H3 & H4)|(-> & H1 & H3 & H4)]]; cbn [flat_map app In];
        destruct (Nat.eqb_spec i k) as [<-|Hne]; rewrite ?E; intuition (try congruence).
      - unfold shutdowns in *. cbn [s_log s_calls]. rewrite filter_app, app_length, Hs.
        pose proof (cnt_set is_ddone (s_calls s) i c' c E) as X.
        assert (Y : is_ddone c = false) by (destruct Hcase as [(_ & _ & _ & _ & Z)|[(_ & _ & _ & Z)|(_ & _ & _ & Z)]]; destruct c; try reflexivity; congruence).
        rewrite Y in X. destruct Hcase as [(-> & H1 & H2 & _)|[(-> & -> & _)|(-> & -> & _)]]; cbn in *; [|lia|lia].
        assert (Y' : is_ddone c' = false) by (destruct c'; try reflexivity; congruence). rewrite Y' in X. lia. }
    destruct c as [b| |[]| | |]; cbn in Hk; try discriminate; injection H as <-.
    + apply (Hgen (if b && negb (checks && s_flag s) then SExport else SDone false) [] (s_flag s)); [|rewrite app_nil_r; reflexivity|left].
      * destruct b, checks, (s_flag s); cbn; eauto; exists true; split; auto; discriminate.
      * split; [reflexivity|]. destruct (b && _); repeat split; discriminate.
    + apply (Hgen (SDone true) [XExport i] (s_flag s)); [exact Hk|reflexivity|]. right; left. repeat split; discriminate.
    + apply (Hgen DExporter [] true); [exact Hk|rewrite app_nil_r; reflexivity|]. left. repeat split; discriminate.
    + apply (Hgen DDone [XShutdown] (s_flag s)); [exact Hk|reflexivity|]. right; right. repeat split; discriminate.
Qed.
Lemma sinv_run checks : forall acts s ws s', sinv checks s ws -> srun checks s acts = Some s' -> sinv checks s' (ws ++ asked acts).
Proof.
  induction acts as [|a acts IH]; intros s ws s' I H; cbn [srun] in H.
  - injection H as <-. cbn [asked]. rewrite app_nil_r. exact I.
  - destruct (sstep checks s a) as [s1|] eqn:E; [|discriminate]. pose proof (IH _ _ _ (sinv_step _ _ _ _ _ I E) H) as X.
    rewrite <- app_assoc in X. destruct a; exact X.
Qed.
Lemma sinv_init checks : sinv checks s_init [].
Proof. split; cbn; auto; [intros [|i] c H; discriminate|constructor|]. intros i. split; [intros []|destruct i; discriminate]. Qed.

(** Whatever the interleaving: an item is exported at most once, only if it was
    wanted (the span was sampled), and only by its own call; when a span's call
    has returned, it was exported exactly if it was sampled. *)
Theorem C31_C40_each_once : forall checks acts s, srun checks s_init acts = Some s ->
  NoDup (exports s) /\
  (forall i, In i (exports s) -> nth_error (asked acts) i = Some (Some true)) /\
  (forall i, In i (exports s) <-> nth_error (s_calls s) i = Some (SDone true)) /\
  (checks = false -> forall i b, nth_error (s_calls s) i = Some (SDone b) -> nth_error (asked acts) i = Some (Some b)) /\
  shutdowns s = List.length (filter is_ddone (s_calls s)).
Proof.
  intros checks acts s H. destruct (sinv_run checks _ _ _ _ (sinv_init checks) H) as [Hl Hc Hn Hi Hs]. cbn [app] in *.
  split; [exact Hn|split; [|split; [exact Hi|split; [|exact Hs]]]].
  - intros i Hin. apply Hi in Hin. destruct (Hc _ _ Hin) as (w & Hw & Hk). cbn in Hk. congruence.
  - intros Hck i b Hb. destruct (Hc _ _ Hb) as (w & Hw & Hk). destruct b; cbn in Hk; [congruence|].
    destruct Hk as (b & -> & Hb'). rewrite (Hb' Hck) in Hw. exact Hw.
Qed.
Print Assumptions C31_C40_each_once.

(** The exporter's log only grows; so a call made after another has returned has
    its export after it. *)
Theorem C31_C40_order : forall checks acts acts' s s', srun checks s_init acts = Some s -> srun checks s acts' = Some s' ->
  exists l, exports s' = exports s ++ l.
Proof.
  intros checks acts acts' s s' _ H. assert (X : exists l, s_log s' = s_log s ++ l).
  { revert s H. induction acts' as [|a acts' IH]; intros s H; cbn [srun] in H; [injection H as <-; exists []; rewrite app_nil_r; reflexivity|].
    destruct (sstep checks s a) as [s1|] eqn:E; [|discriminate]. destruct (IH _ H) as (l & Hl).
    assert (Y : exists l, s_log s1 = s_log s ++ l).
    { destruct a as [w| |i]; cbn in E; [injection E as <-; exists []; rewrite app_nil_r; reflexivity|injection E as <-; exists []; rewrite app_nil_r; reflexivity|].
      destruct (nth_error (s_calls s) i) as [[]|]; try discriminate; injection E as <-; cbn [s_log]; eauto; exists []; rewrite app_nil_r; reflexivity. }
    destruct Y as (m & Hm). exists (m ++ l). rewrite Hl, Hm, app_assoc. reflexivity. }
  destruct X as (l & Hl). unfold exports. rewrite Hl, flat_map_app. eauto.
Qed.
Print Assumptions C31_C40_order.

(** In particular, one thread ending spans: exactly the sampled ones, in order. *)
Fixpoint end_spans (k : nat) (ws : list bool) : list saction :=
  match ws with
  | [] => []
  | w :: ws => [SCall w; SStep k] ++ (if w then [SStep k] else []) ++ end_spans (S k) ws
  end.
Fixpoint sampled_positions (k : nat) (ws : list bool) : list nat :=
  match ws with
  | [] => []
  | w :: ws => (if w then [k] else []) ++ sampled_positions (S k) ws
  end.
Lemma end_spans_run : forall ws s, exists s', srun false s (end_spans (List.length (s_calls s)) ws) = Some s' /\
  exports s' = exports s ++ sampled_positions (List.length (s_calls s)) ws.
Proof.
  induction ws as [|w ws IH]; intros s; [exists s; cbn; rewrite app_nil_r; auto|].
  cbn [end_spans sampled_positions]. cbn [app srun sstep s_calls s_flag s_log]. rewrite nth_snoc_new. cbn [andb negb]. rewrite andb_true_r.
  assert (Hs : forall x y, set_nth (List.length (s_calls s)) x (s_calls s ++ [y]) = s_calls s ++ [x]).
  { intros x y. generalize (s_calls s). intros l. induction l as [|z l IHl]; cbn; [reflexivity|f_equal; exact IHl]. }
  rewrite Hs. destruct w; cbn [app srun sstep s_calls s_flag s_log].
  - rewrite nth_snoc_new. cbn [srun]. rewrite Hs.
    destruct (IH (mk_s (s_flag s) (s_calls s ++ [SDone true]) (s_log s ++ [XExport (List.length (s_calls s))]))) as (s' & H1 & H2).
    cbn [s_calls] in *. rewrite app_length in *. cbn [List.length] in *. rewrite Nat.add_1_r in *. exists s'. split; [exact H1|].
    rewrite H2. unfold exports. cbn [s_log]. rewrite flat_map_app. cbn [flat_map app]. rewrite <- app_assoc. reflexivity.
  - destruct (IH (mk_s (s_flag s) (s_calls s ++ [SDone false]) (s_log s))) as (s' & H1 & H2).
    cbn [s_calls] in *. rewrite app_length in *. cbn [List.length] in *. rewrite Nat.add_1_r in *. exists s'. split; [exact H1|exact H2].
Qed.
Theorem C31_sequential : forall ws, exists s, srun false s_init (end_spans 0 ws) = Some s /\ exports s = sampled_positions 0 ws.
Proof. intros ws. exact (end_spans_run ws s_init). Qed.
Print Assumptions C31_sequential.
Example C31_nonvacuous : exists s, srun false s_init (end_spans 0 [true; false; true]) = Some s /\ exports s = [0; 2].
Proof. eexists. split; reflexivity. Qed.

(** C40.  An emit that begins once shutdown's store has been made is never
    exported. *)
Definition rejected_later (checks : bool) (s : sstate) (j : nat) : Prop :=
  checks = true /\ s_flag s = true /\ (nth_error (s_calls s) j = Some (SCheck true) \/ nth_error (s_calls s) j = Some (SDone false)).
Lemma rejected_step checks s a s' j : rejected_later checks s j -> sstep checks s a = Some s' -> rejected_later checks s' j.
Proof.
  intros (-> & Hf & Hj) H. destruct a as [w| |i]; cbn in H.
  - injection H as <-. split; [reflexivity|split; [exact Hf|]]. cbn. destruct Hj as [Hj|Hj]; rewrite (nth_snoc_old _ _ _ _ Hj); auto.
  - injection H as <-. split; [reflexivity|split; [exact Hf|]]. cbn. destruct Hj as [Hj|Hj]; rewrite (nth_snoc_old _ _ _ _ Hj); auto.
  - destruct (nth_error (s_calls s) i) as [c|] eqn:E; [|discriminate].
    destruct (Nat.eq_dec i j) as [->|Hne].
    + destruct Hj as [Hj|Hj]; rewrite Hj in E; injection E as <-; [|discriminate]. rewrite Hf in H. cbn in H. injection H as <-.
      split; [reflexivity|split; [reflexivity|]]. cbn. rewrite nth_set_nth, Nat.eqb_refl, Hj. auto.
    + destruct c; try discriminate; injection H as <-; (split; [reflexivity|split; [auto|]]); cbn [s_calls]; rewrite nth_set_nth;
      destruct (Nat.eqb_spec i j); try congruence; auto.
Qed.
Theorem C40_nothing_after_shutdown : forall acts s acts' s', srun true s_init acts = Some s -> s_flag s = true ->
  srun true s (SCall true :: acts') = Some s' -> ~ In (List.length (s_calls s)) (exports s').
Proof.
  intros acts s acts' s' H Hf H' Hin.
  assert (HI : srun true s_init (acts ++ SCall true :: acts') = Some s').
  { clear -H H'. revert H. generalize s_init. induction acts as [|a acts IH]; intros s0 H; cbn [srun app] in *; [injection H as ->; exact H'|].
    destruct (sstep true s0 a); [auto|discriminate]. }
  destruct (C31_C40_each_once true _ _ HI) as (_ & _ & Hd & _). apply Hd in Hin.
  cbn [srun sstep] in H'.
  assert (R : rejected_later true (mk_s (s_flag s) (s_calls s ++ [SCheck true]) (s_log s)) (List.length (s_calls s))).
  { split; [reflexivity|split; [exact Hf|left; apply nth_snoc_new]]. }
  clear -R H' Hin. revert R H'. generalize (mk_s (s_flag s) (s_calls s ++ [SCheck true]) (s_log s)) (List.length (s_calls s)) Hin. clear s Hin.
  intros s j Hin R H'. revert s R H'. induction acts' as [|a acts' IH]; intros s R H'; cbn [srun] in H'.
  - injection H' as <-. destruct R as (_ & _ & [X|X]); congruence.
  - destruct (sstep true s a) as [s1|] eqn:E; [|discriminate]. exact (IH _ (rejected_step _ _ _ _ _ R E) H').
Qed.
Print Assumptions C40_nothing_after_shutdown.
(** The flag is up as soon as one shutdown call has returned. *)
Theorem C40_flag_after_shutdown : forall acts s i, srun true s_init acts = Some s -> nth_error (s_calls s) i = Some DDone -> s_flag s = true.
Proof.
  intros acts s i H Hi.
  assert (X : forall acts s, srun true s_init acts = Some s -> forall i, nth_error (s_calls s) i = Some DDone \/ nth_error (s_calls s) i = Some DExporter -> s_flag s = true); [|eapply X; eauto].
  clear. intros acts s H. assert (G : forall i, nth_error (s_calls s_init) i = Some DDone \/ nth_error (s_calls s_init) i = Some DExporter -> s_flag s_init = true).
  { intros [|i] [X|X]; discriminate. }
  revert G H. generalize s_init. induction acts as [|a acts IH]; intros s0 G H; cbn [srun] in H; [injection H as <-; exact G|].
  destruct (sstep true s0 a) as [s1|] eqn:E; [|discriminate]. apply (IH s1); [|exact H]. clear IH H.
  intros i Hi. destruct a as [w| |k]; cbn in E.
  - injection E as <-. cbn in *. destruct Hi as [Hi|Hi]; destruct (nth_snoc _ _ _ _ Hi) as [Hi'|[_ Hi']]; try discriminate; eauto.
  - injection E as <-. cbn in *. destruct Hi as [Hi|Hi]; destruct (nth_snoc _ _ _ _ Hi) as [Hi'|[_ Hi']]; try discriminate; eauto.
  - destruct (nth_error (s_calls s0) k) as [c|] eqn:Ek; [|discriminate].
    destruct c; try discriminate; injection E as <-; cbn [s_flag s_calls] in *; auto; rewrite nth_set_nth in Hi;
    (destruct (Nat.eqb_spec k i) as [E|]; [rewrite E in Ek; rewrite Ek in Hi; destruct Hi as [Hi|Hi]; try discriminate|]; eauto);
    cbn in Hi; destruct wanted, (s_flag s0); cbn in Hi; congruence.
Qed.
Print Assumptions C40_flag_after_shutdown.

(** An emit under way may still be exported after shutdown returned (and after
    the exporter's own shutdown)... *)
Theorem C108_quiet_after_shutdown_refuted : ~ (forall acts s acts' s' i, srun true s_init acts = Some s ->
  nth_error (s_calls s) i = Some DDone -> srun true s acts' = Some s' -> exports s' = exports s).
Proof.
  intros H. specialize (H [SCall true; SStep 0; SShutdown; SStep 1; SStep 1] _ [SStep 0] _ 1 eq_refl eq_refl eq_refl). discriminate.
Qed.
Print Assumptions C108_quiet_after_shutdown_refuted.
(** ... and SimpleConcurrentLogProcessor does not look at all. *)
Theorem C108_concurrent_processor_refuted : ~ (forall acts s acts' s', srun false s_init acts = Some s ->
  (exists i, nth_error (s_calls s) i = Some DDone) -> srun false s (SCall true :: acts') = Some s' ->
  ~ In (List.length (s_calls s)) (exports s')).
Proof.
  intros H. refine (H [SShutdown; SStep 0] _ [SStep 1; SStep 1] _ eq_refl (ex_intro _ 0 eq_refl) eq_refl _). cbn. auto.
Qed.
Print Assumptions C108_concurrent_processor_refuted.

(** Until shutdown is called every emit whose call has returned was exported, if wanted. *)
Theorem C40_all_exported_without_shutdown : forall checks acts s i b, srun checks s_init acts = Some s -> ~ In SShutdown acts ->
  nth_error (s_calls s) i = Some (SDone b) -> nth_error (asked acts) i = Some (Some b).
Proof.
  intros checks acts s i b H Hn Hi.
  assert (X : forall acts s0 ws s, srun checks s0 acts = Some s -> ~ In SShutdown acts -> s_flag s0 = false ->
    (forall i, nth_error (s_calls s0) i <> Some DStore) ->
    (forall i c, nth_error (s_calls s0) i = Some c -> match c with SDone b | SCheck b => nth_error ws i = Some (Some b) | SExport => nth_error ws i = Some (Some true) | _ => True end) ->
    List.length ws = List.length (s_calls s0) ->
    (forall i c, nth_error (s_calls s) i = Some c -> match c with SDone b | SCheck b => nth_error (ws ++ asked acts) i = Some (Some b) | SExport => nth_error (ws ++ asked acts) i = Some (Some true) | _ => True end)).
  { clear. induction acts as [|a acts IH]; intros s0 ws s H Hn Hf Hd G Hl; cbn [srun] in H; [injection H as <-; cbn [asked]; rewrite app_nil_r; exact G|].
    destruct (sstep checks s0 a) as [s1|] eqn:E; [|discriminate]. assert (Hn' : ~ In SShutdown acts) by (intros Y; apply Hn; right; exact Y).
    destruct a as [w| |k]; [|exfalso; apply Hn; left; reflexivity|].
    - cbn in E. injection E as <-. cbn [asked]. replace (ws ++ Some w :: asked acts) with ((ws ++ [Some w]) ++ asked acts) by (rewrite <- app_assoc; reflexivity).
      eapply IH; [exact H|exact Hn'|exact Hf| | |cbn [s_calls]; rewrite !app_length, Hl; reflexivity]; cbn [s_calls].
      + intros j Hj. destruct (nth_snoc _ _ _ _ Hj) as [Hj'|[_ Hj']]; [exact (Hd j Hj')|discriminate].
      + intros j c Hj. destruct (nth_snoc _ _ _ _ Hj) as [Hj'|[Ej Hj']].
        * assert (j < List.length ws) by (rewrite Hl; apply nth_error_Some; congruence). pose proof (G j c Hj') as Gj.
          destruct c; auto; rewrite nth_error_app1; auto.
        * subst c. rewrite nth_error_app2 by lia. replace (j - List.length ws) with 0 by lia. reflexivity.
    - cbn [asked]. cbn [sstep] in E. destruct (nth_error (s_calls s0) k) as [c|] eqn:Ek; [|discriminate]. pose proof (G k c Ek) as Gk.
      assert (Hset : forall c' j c2, nth_error (set_nth k c' (s_calls s0)) j = Some c2 -> (j = k /\ c2 = c') \/ nth_error (s_calls s0) j = Some c2) 
        by (intros c' j c2 Hj; rewrite nth_set_nth in Hj; destruct (Nat.eqb_spec k j); [subst; rewrite Ek in Hj; left; split; congruence|right; exact Hj]).
      destruct c as [w| |b'| | |]; try discriminate; injection E as <-;
        (eapply IH; [exact H|exact Hn'|cbn; try exact Hf|cbn [s_calls]|cbn [s_calls]|cbn [s_calls]; rewrite set_nth_length; exact Hl]); try (exfalso; exact (Hd _ Ek));
        try (intros j Hj; destruct (Hset _ _ _ Hj) as [[_ Y]|Y]; [try discriminate; destruct (w && _); discriminate|exact (Hd j Y)]);
        try (intros j c2 Hj; destruct (Hset _ _ _ Hj) as [[-> ->]|Y]; [|exact (G j c2 Y)]; auto).
      rewrite Hf, andb_false_r, andb_true_r. destruct w; exact Gk. }
  exact (X acts s_init [] s H Hn eq_refl ltac:(intros [|j]; discriminate) ltac:(intros [|j] c Hc; discriminate) eq_refl i (SDone b) Hi).
Qed.
Print Assumptions C40_all_exported_without_shutdown.

(** Before shutdown every emit whose call has returned is exported. *)
Theorem C40_all_exported_before : forall acts s i b, srun true s_init acts = Some s -> s_flag s = false ->
  Forall (fun w => w = Some true \/ w = None) (asked acts) ->
  nth_error (s_calls s) i = Some (SDone b) -> b = true.
Proof.
  intros acts s i b H Hf Hw Hi.
  assert (X : forall acts s s1, srun true s acts = Some s1 -> s_flag s1 = false -> Forall (fun w => w = Some true \/ w = None) (asked acts) ->
    (forall i, nth_error (s_calls s) i <> Some (SDone false) /\ nth_error (s_calls s) i <> Some (SCheck false)) ->
    (forall i, nth_error (s_calls s1) i <> Some (SDone false) /\ nth_error (s_calls s1) i <> Some (SCheck false))).
  { clear. induction acts as [|a acts IH]; intros s s1 H Hf Hw G; cbn [srun] in H; [injection H as <-; exact G|].
    destruct (sstep true s a) as [s2|] eqn:E; [|discriminate].
    assert (Hf2 : s_flag s2 = false).
    { clear -H Hf. revert s2 H. induction acts as [|a acts IH]; intros s2 H; cbn [srun] in H; [injection H as <-; exact Hf|].
      destruct (sstep true s2 a) as [s3|] eqn:E; [|discriminate]. specialize (IH _ H).
      destruct a as [w| |k]; cbn in E; try (injection E as <-; exact IH). destruct (nth_error (s_calls s2) k) as [[]|]; try discriminate; injection E as <-; cbn in *; auto; discriminate. }
    apply (IH s2 s1 H Hf); [destruct a; cbn [asked] in Hw; auto; inversion Hw; auto|].
    intros i. destruct a as [w| |k]; cbn in E.
    - injection E as <-. cbn [s_calls]. cbn [asked] in Hw. inversion Hw as [|? ? [Hw1|Hw1] _]; [|discriminate]. injection Hw1 as ->.
      split; intros Hi; destruct (nth_snoc _ _ _ _ Hi) as [Hi'|[_ Hi']]; try discriminate; destruct (G i); contradiction.
    - injection E as <-. cbn [s_calls]. split; intros Hi; destruct (nth_snoc _ _ _ _ Hi) as [Hi'|[_ Hi']]; try discriminate; destruct (G i); contradiction.
    - destruct (nth_error (s_calls s) k) as [c|] eqn:Ek; [|discriminate]. destruct (G k) as [G1 G2].
      destruct c as [w| | | | |]; try discriminate; injection E as <-; cbn [s_calls s_flag] in *; rewrite nth_set_nth; (destruct (Nat.eqb_spec k i) as [Eki|]; [rewrite Eki in Ek; rewrite Ek|apply G]);
      try (split; discriminate). rewrite Hf2. destruct w; cbn; [split; discriminate|congruence]. }
  destruct b; [reflexivity|]. exfalso. refine (proj1 (X acts s_init s H Hf Hw _ i) Hi).
  intros [|k]; split; discriminate.
Qed.
Print Assumptions C40_all_exported_before.
Example C40_nonvacuous : exists s, srun true s_init [SCall true; SStep 0; SStep 0; SShutdown; SStep 1; SStep 1; SCall true; SStep 2] = Some s /\
  exports s = [0] /\ s_flag s = true /\ shutdowns s = 1.
Proof. eexists. split; [reflexivity|auto]. Qed.

(** * C35: sampled spans *)

(** The batch processor exports what it is given, sampled or not: here the first
    span ended has the context [ctxs 0]. *)
Theorem C105_batch_exports_only_sampled_refuted : ~ (forall Q M acts s (ctxs : nat -> span_context), size_ok Q ->
  brun false Q M b_init acts = Some s -> forall i, In i (BatchProps.exported s) -> sc_is_sampled (ctxs i) = true).
Proof.
  intros H.
  destruct (brun false 3 1 b_init [Emit; EStep 0; EStep 0; EStep 0; Tick; WStep true; WStep true; WStep true]) as [s|] eqn:E; [|vm_compute in E; discriminate].
  specialize (H 3 1 _ s (fun _ => sc_none) eq_refl E 0). vm_compute in E. injection E as <-. specialize (H (or_introl eq_refl)). discriminate.
Qed.
Print Assumptions C105_batch_exports_only_sampled_refuted.
(** It exports only sampled spans if it is only given sampled spans ... *)
Theorem C35_batch_given_sampled : forall Q M acts s (ctxs : nat -> span_context), size_ok Q ->
  brun false Q M b_init acts = Some s -> (forall i, i < List.length (b_emits s) -> sc_is_sampled (ctxs i) = true) ->
  forall i, In i (BatchProps.exported s) -> sc_is_sampled (ctxs i) = true.
Proof.
  intros Q M acts s ctxs HQ H Hs i Hi. apply Hs. destruct (C32_C36_order false Q M acts s HQ H) as (F & _ & Hin & _).
  destruct (Hin i) as (e & He & _); [rewrite F; apply in_or_app; auto|]. apply nth_error_Some. congruence.
Qed.
Print Assumptions C35_batch_given_sampled.
(** ... which is so unless a sampler answers RecordOnly: spans that record (only
    those reach on_end, see C27) are sampled exactly if the decision was
    RecordAndSample.  A RecordOnly span records, and is not sampled. *)
Theorem C35_recording_spans_sampled : forall A V (l : limits) shutdown (sample : sctx V -> N -> builder A -> decision * list A * tstate)
  gt gs now b parent,
  (forall c t, fst (fst (sample c t b)) <> RecordOnly) -> (forall r, sb_sampling b = Some r -> fst (fst r) <> RecordOnly) ->
  is_recording (build_with_context l shutdown sample gt gs now b parent) = true ->
  sc_is_sampled (sp_ctx (build_with_context l shutdown sample gt gs now b parent)) = true.
Proof.
  intros A V l shutdown sample gt gs now b parent Hs Hb. unfold build_with_context.
  destruct (cx_suppress parent); [discriminate|]. destruct shutdown; [discriminate|].
  destruct (match cx_span parent with Some sc => (sc_trace sc, sc) | None => _ end) as [tid psc].
  destruct (match sb_sampling b with Some r => r | None => sample parent tid b end) as [[dec extra] st] eqn:E.
  assert (Hd : dec <> RecordOnly).
  { destruct (sb_sampling b) as [r|]; [|specialize (Hs parent tid)]; [specialize (Hb r eq_refl); subst r|rewrite E in Hs]; auto. }
  destruct dec; [discriminate|congruence|]. intros _.
  assert (Hctx : forall psc sc extra, sp_ctx (build_recording_span l psc sc b extra now) = sc).
  { intros. unfold build_recording_span. repeat match goal with |- context [let '(_, _) := ?x in _] => destruct x end. reflexivity. }
  rewrite Hctx. unfold sc_is_sampled. cbn [sc_flags]. unfold flags_is_sampled, with_sampled, SAMPLED.
  apply N.eqb_eq. apply N.bits_inj. intros n. rewrite N.land_spec, N.lor_spec. destruct (N.testbit 1 n); rewrite ?orb_true_r, ?andb_true_r, ?andb_false_r; reflexivity.
Qed.
Print Assumptions C35_recording_spans_sampled.

(** * C41: attributes *)
Section growable.
Context {T : Type}.
Variables (d : T) (cap : nat).
Lemma firstn_set : forall (l : list T) i x, i < List.length l -> firstn (S i) (set_nth i x l) = firstn i l ++ [x].
Proof.
  induction l as [|y l IH]; intros [|i] x H; cbn [List.length] in H; try lia; [reflexivity|].
  cbn [set_nth]. cbn [firstn app]. cbn [firstn] in IH. rewrite <- (IH i x) by lia. reflexivity.
Qed.
(** The contents of an array built by pushes. *)
Definition ga_ok (g : garray T) (l : list T) : Prop :=
  List.length (ga_inline g) = cap /\ ga_count g = Nat.min cap (List.length l) /\
  firstn (ga_count g) (ga_inline g) = firstn cap l /\
  match ga_overflow g with Some o => o = skipn cap l /\ o <> [] | None => List.length l <= cap end.
Lemma ga_ok_new : ga_ok (ga_new d cap) [].
Proof. split; [apply repeat_length|]. cbn. rewrite Nat.min_0_r, firstn_nil. split; [reflexivity|split; [reflexivity|lia]]. Qed.
Lemma ga_ok_push g l v : ga_ok g l -> ga_ok (ga_push cap v g) (l ++ [v]).
Proof.
  intros (H1 & H2 & H3 & H4). unfold ga_push. destruct (Nat.ltb_spec (ga_count g) cap).
  - assert (Hl : List.length l < cap) by lia. assert (Hc : ga_count g = List.length l) by lia.
    split; cbn [ga_inline ga_count ga_overflow]; [rewrite set_nth_length; exact H1|]. rewrite app_length. cbn [List.length].
    split; [lia|]. split.
    + rewrite firstn_set by lia. rewrite H3, !firstn_all2; [reflexivity|rewrite app_length; cbn; lia|lia].
    + destruct (ga_overflow g); [|lia]. destruct H4 as [-> H4]. exfalso. apply H4. apply skipn_all2. lia.
  - assert (Hl : cap <= List.length l) by lia.
    split; cbn [ga_inline ga_count ga_overflow]; [exact H1|]. rewrite app_length. cbn [List.length]. split; [lia|]. split.
    + rewrite H3, firstn_app. replace (cap - List.length l) with 0 by lia. cbn [firstn]. rewrite app_nil_r. reflexivity.
    + rewrite skipn_app. replace (cap - List.length l) with 0 by lia. cbn [skipn]. split; [|destruct (match ga_overflow g with Some o => o | None => [] end); discriminate].
      f_equal. destruct (ga_overflow g); [apply H4|]. symmetry. apply skipn_all2. lia.
Qed.
Lemma ga_ok_all : forall l g m, ga_ok g m -> ga_ok (fold_left (fun g v => ga_push cap v g) l g) (m ++ l).
Proof.
  induction l as [|v l IH]; intros g m H; cbn [fold_left]; [rewrite app_nil_r; exact H|].
  replace (m ++ v :: l) with ((m ++ [v]) ++ l) by (rewrite <- app_assoc; reflexivity). apply IH, ga_ok_push, H.
Qed.
Lemma ga_ok_iter g l : ga_ok g l -> ga_iter g = l.
Proof.
  intros (H1 & H2 & H3 & H4). unfold ga_iter. rewrite H3. destruct (ga_overflow g) as [[|x o]|].
  - destruct H4 as [_ H4]. congruence.
  - destruct H4 as [-> _]. apply firstn_skipn.
  - rewrite app_nil_r. apply firstn_all2, H4.
Qed.
Lemma ga_ok_get g l i : ga_ok g l -> ga_get cap i g = Some (nth_error l i).
Proof.
  intros (H1 & H2 & H3 & H4). unfold ga_get. destruct (Nat.ltb_spec i (ga_count g)).
  - f_equal. transitivity (nth_error (firstn cap l) i).
    + rewrite <- H3, <- (firstn_skipn (ga_count g) (ga_inline g)) at 1. apply nth_error_app1. rewrite firstn_length. lia.
    + rewrite <- (firstn_skipn cap l) at 2. symmetry. apply nth_error_app1. rewrite firstn_length. lia.
  - destruct (ga_overflow g) as [o|].
    + destruct H4 as [-> H4]. assert (Hl : cap < List.length l).
      { destruct (Nat.lt_ge_cases cap (List.length l)); [assumption|]. exfalso. apply H4, skipn_all2. assumption. }
      destruct (Nat.ltb_spec i cap); [lia|]. f_equal. rewrite <- (firstn_skipn cap l) at 2. rewrite nth_error_app2; rewrite firstn_length; [f_equal; lia|lia].
    + f_equal. symmetry. apply nth_error_None. lia.
Qed.
Lemma ga_ok_len g l : ga_ok g l -> ga_len g = List.length l.
Proof.
  intros (H1 & H2 & H3 & H4). unfold ga_len. rewrite H2. destruct (ga_overflow g) as [o|]; [|lia].
  destruct H4 as [-> H4]. rewrite skipn_length. lia.
Qed.
End growable.

(** Any number of pushes, any inline capacity: iteration, length and indexing
    all show the pushed values in order, and no index computation underflows. *)
Theorem C41_growable_array : forall T (d : T) cap l,
  let g := fold_left (fun g v => ga_push cap v g) l (ga_new d cap) in
  ga_iter g = l /\ ga_len g = List.length l /\ forall i, ga_get cap i g = Some (nth_error l i).
Proof.
  intros T d cap l g. assert (H : ga_ok cap g l) by exact (ga_ok_all cap l (ga_new d cap) [] (ga_ok_new d cap)).
  split; [eapply ga_ok_iter, H|split; [eapply ga_ok_len, H|intros i; eapply ga_ok_get, H]].
Qed.
Print Assumptions C41_growable_array.

(** The attributes of a record are those added, in order, whatever else is set
    in between; the other fields are the last values set. *)
Definition added {A B} (o : rec_op A B) : list A := match o with AddAttr a => [a] | AddAttrs l => l | _ => [] end.
Definition last_set {A B X} (f : rec_op A B -> option X) (os : list (rec_op A B)) (init : option X) : option X :=
  fold_left (fun cur o => match f o with Some x => Some x | None => cur end) os init.
Lemma add_attr_fold {A B} : forall l (r : logrec A B),
  lr_attrs (fold_left add_attr l r) = fold_left (fun g v => ga_push PREALLOC v g) (map Some l) (lr_attrs r) /\
  fold_left add_attr l r = mk_rec (lr_event r) (lr_target r) (lr_time r) (lr_observed r) (lr_trace r) (lr_sevtext r) (lr_sev r) (lr_body r) (lr_attrs (fold_left add_attr l r)).
Proof.
  induction l as [|a l IH]; intros r; cbn [fold_left map]; [split; [reflexivity|destruct r; reflexivity]|].
  destruct (IH (add_attr r a)) as [H1 H2]. rewrite H1. split; [reflexivity|]. rewrite H2 at 1. rewrite H1. reflexivity.
Qed.
Theorem C41_record : forall A B (os : list (rec_op A B)),
  let r := fold_left rec_apply os rec_new in
  attributes r = flat_map added os /\
  ga_len (lr_attrs r) = List.length (flat_map added os) /\
  lr_event r = last_set (fun o => match o with SetEvent s => Some s | _ => None end) os None /\
  lr_target r = last_set (fun o => match o with SetTarget s => Some s | _ => None end) os None /\
  lr_time r = last_set (fun o => match o with SetTime s => Some s | _ => None end) os None /\
  lr_observed r = last_set (fun o => match o with SetObserved s => Some s | _ => None end) os None /\
  lr_trace r = last_set (fun o => match o with SetTrace t s f => Some (mk_tctx t s f) | _ => None end) os None /\
  lr_sevtext r = last_set (fun o => match o with SetSevText s => Some s | _ => None end) os None /\
  lr_sev r = last_set (fun o => match o with SetSev s => Some s | _ => None end) os None /\
  lr_body r = last_set (fun o => match o with SetBody s => Some s | _ => None end) os None.
Proof.
  intros A B os r.
  assert (H : forall os (r0 : logrec A B),
    lr_attrs (fold_left rec_apply os r0) = fold_left (fun g v => ga_push PREALLOC v g) (map Some (flat_map added os)) (lr_attrs r0)).
  { clear. induction os as [|o os IH]; intros r0; cbn [fold_left flat_map map]; [reflexivity|]. rewrite IH, map_app, fold_left_app. f_equal.
    destruct o; try reflexivity. exact (proj1 (add_attr_fold l r0)). }
  assert (Hk : ga_ok PREALLOC (lr_attrs r) (map Some (flat_map added os))).
  { unfold r. rewrite H. exact (ga_ok_all PREALLOC (map Some (flat_map added os)) (ga_new None PREALLOC) [] (ga_ok_new None PREALLOC)). }
  split; [|split; [rewrite (ga_ok_len _ _ _ Hk); apply map_length|]].
  { unfold attributes. rewrite (ga_ok_iter _ _ _ Hk). generalize (flat_map added os). clear. intros l. induction l as [|a l IH]; cbn; [reflexivity|f_equal; exact IH]. }
  clear H Hk. unfold r, last_set. clear r.
  assert (G : forall X (get : logrec A B -> option X) f, 
    (forall r o, get (rec_apply r o) = match f o with Some x => Some x | None => get r end) ->
    forall os r, get (fold_left rec_apply os r) = fold_left (fun cur o => match f o with Some x => Some x | None => cur end) os (get r)).
  { clear. intros X get f Hf. induction os as [|o os IH]; intros r; cbn [fold_left]; [reflexivity|]. rewrite IH, Hf. reflexivity. }
  repeat split; match goal with |- ?lhs = fold_left _ _ None => match lhs with ?get (fold_left _ _ _) => apply (G _ get) end end;
  intros r [| | | | | | | |l|]; cbn [rec_apply]; try reflexivity; rewrite (proj2 (add_attr_fold l r)); reflexivity.
Qed.
Print Assumptions C41_record.
Example C41_nonvacuous : attributes (fold_left rec_apply [AddAttrs [1; 2; 3]; SetBody 9; AddAttrs [4; 5]; AddAttr 6; AddAttr 7] rec_new) = [1; 2; 3; 4; 5; 6; 7] /\
  ga_overflow (lr_attrs (fold_left (@rec_apply nat nat) [AddAttrs [1; 2; 3]; SetBody 9; AddAttrs [4; 5]; AddAttr 6; AddAttr 7] rec_new)) = Some [Some 6; Some 7].
Proof. vm_compute. auto. Qed.

(** * C39: the logger *)

(** The record processors are to see, stated independently. *)
Definition expected {A B V} (now : Z) (cx : context span_context V) (r r' : logrec A B) : Prop :=
  lr_trace r' = match lr_trace r, cx_span cx with
                | Some t, _ => Some t
                | None, Some sc => Some (mk_tctx (sc_trace sc) (sc_span sc) (Some (sc_flags sc)))
                | None, None => None
                end /\
  lr_observed r' = Some (match lr_observed r with Some t => t | None => now end) /\
  lr_event r' = lr_event r /\ lr_target r' = lr_target r /\ lr_time r' = lr_time r /\ lr_sevtext r' = lr_sevtext r /\
  lr_sev r' = lr_sev r /\ lr_body r' = lr_body r /\ lr_attrs r' = lr_attrs r.
Lemma deliver_nth {A B} : forall (procs : list (logrec A B -> logrec A B)) r k, k < List.length procs ->
  nth_error (deliver procs r) k = Some (fold_left (fun r p => p r) (firstn k procs) r).
Proof.
  induction procs as [|p procs IH]; intros r k H; cbn [List.length] in H; [lia|]. destruct k as [|k]; [reflexivity|].
  cbn [deliver nth_error firstn fold_left]. apply IH. lia.
Qed.
Lemma deliver_length {A B} : forall (procs : list (logrec A B -> logrec A B)) r, List.length (deliver procs r) = List.length procs.
Proof. induction procs as [|p procs IH]; intros r; cbn; [reflexivity|f_equal; apply IH]. Qed.
Theorem C39_emit : forall A B V now (cx : context span_context V) procs (r : logrec A B),
  cx_suppress cx = false ->
  exists r', expected now cx r r' /\ List.length (emit now cx procs r) = List.length procs /\
  (* processor k receives r' as left by the processors before it *)
  (forall k, k < List.length procs -> nth_error (emit now cx procs r) k = Some (fold_left (fun r p => p r) (firstn k procs) r')) /\
  ((forall p x, In p procs -> p x = x) -> emit now cx procs r = repeat r' (List.length procs)).
Proof.
  intros A B V now cx procs r Hs. unfold emit, cx_is_suppressed. rewrite Hs.
  match goal with |- context [deliver procs ?x] => set (r' := x) end. exists r'. split.
  - unfold r', expected, cx_has_active_span. destruct r as [ev ta ti ob tr st sv bo at_]; cbn [lr_trace lr_observed]. destruct tr, (cx_span cx), ob; cbn; repeat split; reflexivity.
  - split; [apply deliver_length|split; [intros k Hk; apply deliver_nth, Hk|]].
    intros Hp. clearbody r'. clear -Hp. revert r'. induction procs as [|p procs IH]; intros r'; cbn; [reflexivity|]. f_equal.
    rewrite (Hp p r') by (left; reflexivity). apply IH. intros q x Hq. apply Hp. right. exact Hq.
Qed.
Print Assumptions C39_emit.
Theorem C39_suppressed : forall A B V now (cx : context span_context V) procs (r : logrec A B),
  cx_suppress cx = true -> emit now cx procs r = [].
Proof. intros A B V now cx procs r H. unfold emit, cx_is_suppressed. rewrite H. reflexivity. Qed.
Print Assumptions C39_suppressed.
Theorem C39_event_enabled : forall V (cx : context span_context V) procs,
  event_enabled cx procs = true <-> cx_suppress cx = false /\ In true procs.
Proof.
  intros V cx procs. unfold event_enabled, cx_is_suppressed. destruct (cx_suppress cx); [split; [discriminate|intros [H _]; discriminate]|].
  rewrite existsb_exists. split; [intros ([] & H & E); [auto|discriminate]|intros [_ H]; eauto].
Qed.
Print Assumptions C39_event_enabled.

(** Under concurrency (the provider's life cycle as in C30, [emit] making no
    check): each record reaches the processors in order, each once, and all of
    them when emit has returned; also after the provider was shut down.  A
    logger obtained after that reaches none. *)
Theorem C39_concurrent_delivery : forall n ok acts s i, prun n ok false p_init acts = Some s ->
  exists k, k <= n /\ sent_log i (p_log s) = seq 0 k /\ (nth_error (p_calls s) i = Some (Finished RDelivered) -> k = n).
Proof. intros n ok acts s i. apply C30_delivery_in_order. Qed.
Print Assumptions C39_concurrent_delivery.
Theorem C39_no_check : forall n ok s s', pstep n ok false s CallSend = Some s' ->
  nth_error (p_calls s') (List.length (p_calls s)) = Some (Sending 0).
Proof. intros n ok s s' H. cbn in H. destruct (_ =? _); [discriminate|]. injection H as <-. apply nth_snoc_new. Qed.
Print Assumptions C39_no_check.
Theorem C39_new_logger_after_shutdown : forall n, logger_reach true n = 0 /\ logger_reach false n = n.
Proof. intros n. split; reflexivity. Qed.
Print Assumptions C39_new_logger_after_shutdown.
Example C39_nonvacuous :
  emit (A := nat) (B := nat) (V := nat) 7%Z (mk_context (Some (mk_sc 1 2 1 false None)) None false) [fun r => rec_apply r (SetBody 3); fun r => r] rec_new =
  [mk_rec None None None (Some 7%Z) (Some (mk_tctx 1 2 (Some 1%N))) None None None (ga_new None 5);
   mk_rec None None None (Some 7%Z) (Some (mk_tctx 1 2 (Some 1%N))) None None (Some 3) (ga_new None 5)].
Proof. reflexivity. Qed.
