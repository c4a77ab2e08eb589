(** C153, C154: what the stdout exporters print. *)
From Coq Require Import String List NArith ZArith Bool Lia Arith.
From Verif Require Import Str F64 TraceModel SpanModel LogModel ProviderModel AttrModel KvModel OtlpModel StdoutModel StdoutSpec StdoutProofs.
Import ListNotations.
Local Open Scope list_scope.

(** Reading back what was printed for a batch yields what a span, log record or metric
    shows ([seen_…]), in order, and nothing is left over. *)
Theorem C153_spans_readable l : read_spans (print_spans l) = Some (map seen_span l, []).
Proof. rewrite <- (app_nil_r (print_spans l)). apply read_spans_ok, clear_nil. Qed.
Print Assumptions C153_spans_readable.

Theorem C153_logs_readable l : read_logs (print_logs l) = Some (map seen_log l, []).
Proof. rewrite <- (app_nil_r (print_logs l)). apply read_logs_ok, clear_nil. Qed.
Print Assumptions C153_logs_readable.

(** For metrics the resource is printed on every export; after shutdown nothing is. *)
Theorem C153_metrics_readable down r l :
  match export_metrics down r l with
  | None => down = true
  | Some ls =>
      down = false /\
      (_ <- field "Metrics" none; r <- read_resource; m <- read_metrics; ret (r, m)) ls = Some ((r, map (fun g => (fst g, map seen_metric (snd g))) l), [])
  end.
Proof.
  unfold export_metrics. destruct down; [reflexivity |]. split; [reflexivity |].
  erewrite bind_some; [| apply field_ok; reflexivity]. erewrite bind_some; [| apply read_resource_ok].
  - rewrite <- (app_nil_r (print_metrics l)). erewrite bind_some; [| apply read_metrics_ok, clear_nil]. reflexivity.
  - intros t I. destruct l; [reflexivity |]. destruct I as [<- | [<- | []]]; reflexivity.
Qed.
Print Assumptions C153_metrics_readable.

(** Every count a histogram holds is in the printed buckets, each between its own
    boundaries. *)
Theorem C153_buckets bounds counts k : List.length counts = S (List.length bounds) -> k < List.length counts ->
  nth_error (seen_buckets bounds counts) k =
  Some (match k with 0 => None | S j => nth_error bounds j end, nth_error bounds k, nth k counts 0%N).
Proof.
  intros L K. unfold seen_buckets. rewrite nth_error_map.
  assert (S1 : nth_error (seq 0 (S (List.length bounds))) k = Some k).
  { rewrite (nth_error_nth' _ 0) by (rewrite seq_length; lia). rewrite seq_nth by lia. reflexivity. }
  rewrite S1. reflexivity.
Qed.
Print Assumptions C153_buckets.

(** ** Calls *)
Section calls.
Context (header : line) (rlines : list line).
Let run := xrun header rlines.

(** The lines call [i] printed, in order; the batches of the calls, in order. *)
Definition mine (i : nat) (out : list (nat * line)) : list line := map snd (List.filter (fun x => fst x =? i) out).
Definition bodies (acts : list xact) : list (list line) := flat_map (fun a => match a with XCall b => [b] | _ => [] end) acts.
(** What a call by [i] has to print when the resource is printed by [w]. *)
Definition due (w : option nat) (i : nat) (b : list line) : list line :=
  header :: (if match w with Some j => j =? i | None => false end then rlines else []) ++ b.

Lemma mine_app i a b : mine i (a ++ b) = mine i a ++ mine i b.
Proof. unfold mine. rewrite List.filter_app, map_app. reflexivity. Qed.
Lemma mine_same i l : mine i [(i, l)] = [l].
Proof. unfold mine. cbn. rewrite Nat.eqb_refl. reflexivity. Qed.
Lemma mine_other i j l : i <> j -> mine j [(i, l)] = [].
Proof. intro H. unfold mine. cbn. apply Nat.eqb_neq in H. rewrite H. reflexivity. Qed.

Definition pc_ok (w : option nat) (i : nat) (b : list line) (p : pc) (m : list line) : Prop :=
  match p with
  | Entered b' => b' = b /\ m = [] /\ w <> Some i
  | Welcomed b' => b' = b /\ m = [] /\ w <> Some i
  | Greeted b' => b' = b /\ m = [header] /\ w <> Some i
  | Printing rest => m ++ rest = due w i b /\ w <> None /\ m <> []
  | Returned true => m = due w i b /\ w <> None
  | Returned false => m = [] /\ w <> Some i
  end.
Definition inv (w : option nat) (bs : list (list line)) (s : xstate) : Prop :=
  x_emitted s = (match w with Some _ => true | None => false end) /\
  List.length (x_calls s) = List.length bs /\ (forall j, w = Some j -> j < List.length bs) /\
  (forall i, List.length bs <= i -> mine i (x_out s) = []) /\
  forall i b p, nth_error bs i = Some b -> nth_error (x_calls s) i = Some p -> pc_ok w i b p (mine i (x_out s)).

Lemma set_nth_same {A} (l : list A) i a b : nth_error l i = Some a -> nth_error (set_nth i b l) i = Some b.
Proof. revert i. induction l as [| x l IH]; intros [| i] H; cbn in *; try discriminate; [reflexivity | apply IH, H]. Qed.
Lemma set_nth_other {A} (l : list A) i j b : i <> j -> nth_error (set_nth i b l) j = nth_error l j.
Proof. revert i j. induction l as [| x l IH]; intros [| i] [| j] H; cbn; try reflexivity; try lia. apply IH. lia. Qed.
Lemma set_nth_len {A} (l : list A) i b : List.length (set_nth i b l) = List.length l.
Proof. revert i. induction l as [| x l IH]; intros [| i]; cbn; try reflexivity. rewrite IH. reflexivity. Qed.

Lemma pc_ok_take w i j b p m : i <> j -> w = None -> pc_ok w j b p m -> pc_ok (Some i) j b p m.
Proof.
  intros N -> H. assert (N' : Some i <> Some j) by congruence.
  destruct p as [b' | b' | b' | r | [|]]; cbn [pc_ok] in *; try tauto; destruct H as (? & H); tauto.
Qed.

Lemma step_inv w bs s a : inv w bs s -> exists w', inv w' (bs ++ bodies [a]) (xstep header rlines s a).
Proof.
  intros (E & L & B & O & P). destruct a as [body | i |]; cbn [bodies flat_map app xstep].
  - exists w. split; [exact E |]. cbn [x_calls x_out]. rewrite !app_length, L. split; [reflexivity |].
    split; [intros j Hj; specialize (B j Hj); cbn; lia |]. split; [intros j Hj; cbn in Hj; apply O; lia |].
    intros j b p Hb Hp. destruct (Nat.lt_ge_cases j (List.length bs)) as [Lt | Ge].
    + rewrite nth_error_app1 in Hb by lia. rewrite nth_error_app1 in Hp by lia. apply P; assumption.
    + rewrite nth_error_app2 in Hb by lia. rewrite nth_error_app2 in Hp by lia. rewrite L in Hp.
      destruct (j - List.length bs) as [| d] eqn:D; [| destruct d; discriminate]. cbn in Hb, Hp. injection Hb as <-. injection Hp as <-.
      cbn. split; [reflexivity |]. split; [apply O; lia |]. intro W. specialize (B j W). lia.
  - rewrite app_nil_r. destruct (nth_error (x_calls s) i) as [p |] eqn:Hi; [| exists w; repeat split; assumption].
    assert (Li : i < List.length bs) by (rewrite <- L; apply nth_error_Some; congruence).
    destruct (nth_error bs i) as [b |] eqn:Hbi; [| apply nth_error_None in Hbi; lia].
    pose proof (P i b p Hbi Hi) as Pi.
    assert (G : forall w' e p' out,
      e = (match w' with Some _ => true | None => false end) -> (forall j, w' = Some j -> j < List.length bs) ->
      (forall j, j <> i -> mine j (x_out s ++ out) = mine j (x_out s)) ->
      pc_ok w' i b p' (mine i (x_out s ++ out)) ->
      (forall j b p, j <> i -> nth_error bs j = Some b -> nth_error (x_calls s) j = Some p -> pc_ok w' j b p (mine j (x_out s))) ->
      inv w' bs (set_pc i p' s e (x_out s ++ out))).
    { intros w' e p' out He Hb Ho Hp Hq. unfold inv, set_pc. cbn [x_emitted x_calls x_out]. split; [exact He |]. rewrite set_nth_len. split; [exact L |].
      split; [exact Hb |]. split; [intros j Hj; rewrite Ho by lia; apply O, Hj |].
      intros j bj pj Hbj Hpj. destruct (Nat.eq_dec j i) as [-> | Nj].
      - rewrite (set_nth_same _ _ p) in Hpj by exact Hi. injection Hpj as <-. rewrite Hbi in Hbj. injection Hbj as <-. exact Hp.
      - rewrite set_nth_other in Hpj by congruence. rewrite Ho by exact Nj. apply Hq; assumption. }
    assert (Q : forall j b p, j <> i -> nth_error bs j = Some b -> nth_error (x_calls s) j = Some p -> pc_ok w j b p (mine j (x_out s)))
      by (intros; apply P; assumption).
    assert (G0 : forall e p', e = x_emitted s -> pc_ok w i b p' (mine i (x_out s)) -> inv w bs (set_pc i p' s e (x_out s))).
    { intros e p' -> Hp. pose proof (G w (x_emitted s) p' []) as G'. rewrite app_nil_r in G'. apply G'; auto. }
    destruct p as [body | body | body | rest | ok]; cbn [pc_ok] in Pi.
    + exists w. apply G0; [reflexivity |]. destruct Pi as (-> & M & W). destruct (x_down s); cbn; auto.
    + exists w. destruct Pi as (-> & M & W). apply G; try assumption.
      * intros j Nj. rewrite mine_app, mine_other by congruence. apply app_nil_r.
      * rewrite mine_app, mine_same, M. cbn. auto.
    + destruct Pi as (-> & M & W). destruct (x_emitted s) eqn:Em.
      * exists w. apply G0; [reflexivity |]. cbn. rewrite M. destruct w as [j |]; [| discriminate]. unfold due.
        assert (F : (j =? i) = false) by (apply Nat.eqb_neq; congruence). rewrite F. repeat split; discriminate.
      * destruct w as [j |]; [discriminate |]. exists (Some i).
        pose proof (G (Some i) true (Printing (rlines ++ b)) []) as G'. rewrite app_nil_r in G'. apply G'; auto.
        -- intros j Hj. injection Hj as <-. exact Li.
        -- cbn. rewrite M. unfold due. rewrite Nat.eqb_refl. repeat split; discriminate.
        -- intros j bj pj Nj Hbj Hpj. apply (pc_ok_take None); auto.
    + destruct Pi as (M & W & N). destruct rest as [| l rest]; exists w.
      * apply G0; [reflexivity |]. cbn. rewrite app_nil_r in M. auto.
      * apply G; try assumption.
        -- intros j Nj. rewrite mine_app, mine_other by congruence. apply app_nil_r.
        -- rewrite mine_app, mine_same. cbn. rewrite <- app_assoc. split; [exact M |]. split; [exact W |]. destruct (mine i (x_out s)); discriminate.
    + exists w. repeat split; assumption.
  - rewrite app_nil_r. exists w. repeat split; assumption.
Qed.

Lemma run_inv acts : exists w, inv w (bodies acts) (run acts).
Proof.
  induction acts as [| a acts IH] using rev_ind.
  - exists None. split; [reflexivity |]. split; [reflexivity |]. split; [discriminate |]. split; [reflexivity |]. intros [| i]; discriminate.
  - destruct IH as (w & I). unfold run, xrun. rewrite fold_left_app. unfold bodies. rewrite flat_map_app. apply (step_inv w). exact I.
Qed.

(** However the calls interleave, there is one call at most that prints the resource;
    every call prints, in order, a prefix of the heading, the resource if it is that one,
    and its own batch; all of it once it has returned Ok, and then some call does print
    the resource; nothing if it failed. *)
Theorem C153_calls acts :
  exists w, forall i b, nth_error (bodies acts) i = Some b ->
    exists p, nth_error (x_calls (run acts)) i = Some p /\
      (exists later, mine i (x_out (run acts)) ++ later = due w i b) /\
      (p = Returned true -> mine i (x_out (run acts)) = due w i b /\ w <> None) /\
      (p = Returned false -> mine i (x_out (run acts)) = []).
Proof.
  destruct (run_inv acts) as (w & E & L & B & O & P). exists w. intros i b Hb.
  destruct (nth_error (x_calls (run acts)) i) as [p |] eqn:Hp.
  2: { apply nth_error_None in Hp. assert (i < List.length (bodies acts)) by (apply nth_error_Some; congruence). lia. }
  exists p. split; [reflexivity |]. specialize (P i b p Hb Hp). destruct p as [b' | b' | b' | rest | [|]]; cbn [pc_ok] in P.
  - destruct P as (-> & -> & W). split; [eexists; reflexivity |]. split; discriminate.
  - destruct P as (-> & -> & W). split; [eexists; reflexivity |]. split; discriminate.
  - destruct P as (-> & -> & W). split; [eexists; reflexivity |]. split; discriminate.
  - destruct P as (<- & W). split; [eexists; reflexivity |]. split; discriminate.
  - destruct P as (-> & W). split; [exists []; apply app_nil_r |]. split; [auto | discriminate].
  - destruct P as (-> & W). split; [eexists; reflexivity |]. split; [discriminate | auto].
Qed.

Lemma step_calls_len s a : List.length (x_calls s) <= List.length (x_calls (xstep header rlines s a)).
Proof.
  destruct a as [b | i |]; cbn [xstep].
  - cbn. rewrite app_length. lia.
  - destruct (nth_error (x_calls s) i) as [[ | | | [| l r] |] |]; cbn; rewrite ?set_nth_len; lia.
  - cbn. lia.
Qed.

Lemma step_fate s a i p : nth_error (x_calls s) i = Some p ->
  exists p', nth_error (x_calls (xstep header rlines s a)) i = Some p' /\
    (p' = Returned false -> p = Returned false \/ x_down s = true) /\
    (x_down s = true -> (p = Returned false -> p' = Returned false) /\ (forall b, p = Entered b -> p' = Entered b \/ p' = Returned false)).
Proof.
  intro H. assert (K : forall q, nth_error (x_calls s) i = Some q -> exists p', Some q = Some p' /\ (p' = Returned false -> p = Returned false \/ x_down s = true) /\
    (x_down s = true -> (p = Returned false -> p' = Returned false) /\ (forall b, p = Entered b -> p' = Entered b \/ p' = Returned false))).
  { intros q Hq. rewrite H in Hq. injection Hq as <-. exists p. split; [reflexivity |]. split; [auto |]. intros _. split; auto. }
  destruct a as [b | j |]; cbn [xstep].
  - cbn. rewrite nth_error_app1 by (apply nth_error_Some; congruence). destruct (K p H) as (p' & E & R). injection E as <-. exists p. split; [exact H | exact R].
  - destruct (Nat.eq_dec j i) as [-> | N].
    + rewrite H. destruct p as [b | b | b | [| l r] | ok]; unfold set_pc; cbn [x_calls]; rewrite ?(set_nth_same _ _ _ _ H).
      * destruct (x_down s) eqn:D; eexists; (split; [reflexivity |]); split; try discriminate; auto; try (intros; discriminate).
      * eexists; split; [reflexivity |]. split; [discriminate |]. intros _. split; intros; discriminate.
      * eexists; split; [reflexivity |]. split; [discriminate |]. intros _. split; intros; discriminate.
      * eexists; split; [reflexivity |]. split; [discriminate |]. intros _. split; intros; discriminate.
      * eexists; split; [reflexivity |]. split; [discriminate |]. intros _. split; intros; discriminate.
      * exists (Returned ok). split; [exact H |]. split; [auto |]. intros _. split; auto.
    + assert (X : nth_error (x_calls (match nth_error (x_calls s) j with
        | Some (Entered body) => set_pc j (if x_down s then Returned false else Welcomed body) s (x_emitted s) (x_out s)
        | Some (Welcomed body) => set_pc j (Greeted body) s (x_emitted s) (x_out s ++ [(j, header)])
        | Some (Greeted body) => set_pc j (Printing (if x_emitted s then body else rlines ++ body)) s true (x_out s)
        | Some (Printing []) => set_pc j (Returned true) s (x_emitted s) (x_out s)
        | Some (Printing (l :: rest)) => set_pc j (Printing rest) s (x_emitted s) (x_out s ++ [(j, l)])
        | Some (Returned _) | None => s end)) i = nth_error (x_calls s) i).
      { destruct (nth_error (x_calls s) j) as [[ | | | [| l r] |] |]; unfold set_pc; cbn [x_calls]; rewrite ?set_nth_other by exact N; reflexivity. }
      rewrite X, H. apply K, H.
  - cbn. rewrite H. apply K, H.
Qed.

Lemma step_down s a : x_down (xstep header rlines s a) = (match a with XDown => true | _ => x_down s end).
Proof. destruct a as [b | i |]; cbn [xstep]; try reflexivity. destruct (nth_error (x_calls s) i) as [[ | | | [| l r] |] |]; reflexivity. Qed.

(** A call that begins after shutdown prints nothing and, if it has returned, failed. *)
Theorem C153_after_shutdown before after i b :
  nth_error (bodies (before ++ XDown :: after)) i = Some b -> List.length (bodies before) <= i ->
  let s := run (before ++ XDown :: after) in
  mine i (x_out s) = [] /\ (nth_error (x_calls s) i = Some (Entered b) \/ nth_error (x_calls s) i = Some (Returned false)).
Proof.
  intros Hb Hi s.
  assert (D : x_down s = true /\ forall j c, nth_error (bodies (before ++ XDown :: after)) j = Some c -> List.length (bodies before) <= j ->
    nth_error (x_calls s) j = Some (Entered c) \/ nth_error (x_calls s) j = Some (Returned false)).
  { unfold s. clear Hb Hi s. induction after as [| a after IH] using rev_ind.
    - unfold run, xrun. rewrite fold_left_app. cbn [fold_left]. split; [apply step_down |]. intros j c Hj Lj.
      unfold bodies in Hj. rewrite flat_map_app in Hj. cbn in Hj. rewrite app_nil_r in Hj. assert (j < List.length (bodies before)) by (apply nth_error_Some; unfold bodies; congruence). lia.
    - replace (before ++ XDown :: after ++ [a]) with ((before ++ XDown :: after) ++ [a]) by (rewrite <- app_assoc; reflexivity).
      destruct IH as (Dn & IH). unfold run, xrun. rewrite fold_left_app. cbn [fold_left]. fold (xrun header rlines (before ++ XDown :: after)).
      fold (run (before ++ XDown :: after)). split; [rewrite step_down, Dn; destruct a; reflexivity |].
      intros j c Hj Lj. unfold bodies in Hj. rewrite flat_map_app in Hj. fold (bodies (before ++ XDown :: after)) in Hj. fold (bodies [a]) in Hj.
      destruct (Nat.lt_ge_cases j (List.length (bodies (before ++ XDown :: after)))) as [Lt | Ge].
      + rewrite nth_error_app1 in Hj by lia. destruct (IH j c Hj Lj) as [E | E]; destruct (step_fate _ a j _ E) as (p' & E' & _ & F);
          destruct (F Dn) as (F1 & F2); rewrite E'.
        * destruct (F2 c eq_refl) as [-> | ->]; auto.
        * rewrite F1 by reflexivity. auto.
      + rewrite nth_error_app2 in Hj by lia. destruct a as [b' | i' |]; cbn in Hj; [| destruct (j - _); discriminate | destruct (j - _); discriminate].
        destruct (run_inv (before ++ XDown :: after)) as (w & _ & L & _).
        destruct (j - List.length (bodies (before ++ XDown :: after))) as [| d] eqn:Dj; [| destruct d; discriminate]. cbn in Hj. injection Hj as ->.
        left. cbn [xstep x_calls]. rewrite nth_error_app2 by lia. rewrite L, Dj. reflexivity. }
  destruct D as (_ & D). specialize (D i b Hb Hi). split; [| exact D].
  destruct (run_inv (before ++ XDown :: after)) as (w & _ & _ & _ & _ & P). fold s in P. destruct D as [E | E]; specialize (P i b _ Hb E); cbn in P; tauto.
Qed.

(** No call fails unless the exporter was shut down. *)
Theorem C153_before_shutdown acts i : ~ In XDown acts -> nth_error (x_calls (run acts)) i <> Some (Returned false).
Proof.
  intro N. assert (G : x_down (run acts) = false /\ forall i, nth_error (x_calls (run acts)) i <> Some (Returned false)).
  { clear i. induction acts as [| a acts IH] using rev_ind; [split; [reflexivity | intros [| i]; discriminate] |].
    assert (Na : ~ In XDown acts) by (intro I; apply N, in_or_app; auto). assert (Nx : a <> XDown) by (intros ->; apply N, in_or_app; right; left; reflexivity).
    destruct (IH Na) as (D & F). unfold run, xrun. rewrite fold_left_app. cbn [fold_left]. fold (xrun header rlines acts). fold (run acts).
    split; [rewrite step_down; destruct a; [exact D | exact D | congruence] |].
    intros i E. destruct (nth_error (x_calls (run acts)) i) as [p |] eqn:Hp.
    - destruct (step_fate _ a i p Hp) as (p' & E' & R & _). rewrite E in E'. injection E' as <-. destruct (R eq_refl) as [-> | X]; [exact (F i Hp) | congruence].
    - destruct a as [b | j |]; [| | congruence].
      + cbn [xstep x_calls] in E. apply nth_error_None in Hp. rewrite nth_error_app2 in E by exact Hp. destruct (i - _) as [| [| d]]; discriminate.
      + assert (Ln : List.length (x_calls (xstep header rlines (run acts) (XStep j))) = List.length (x_calls (run acts))).
        { cbn [xstep]. destruct (nth_error (x_calls (run acts)) j) as [[ | | | [| l r] |] |]; cbn; rewrite ?set_nth_len; reflexivity. }
        apply nth_error_None in Hp. rewrite <- Ln in Hp. apply nth_error_None in Hp. congruence. }
  apply G.
Qed.

(** A call never waits for another: some number of its own steps makes it return, from
    wherever the run is. *)
Theorem C153_returns acts i b : nth_error (bodies acts) i = Some b ->
  exists n ok, n <= List.length rlines + List.length b + 4 /\ nth_error (x_calls (run (acts ++ repeat (XStep i) n))) i = Some (Returned ok).
Proof.
  intro Hb.
  assert (R : forall rest s, nth_error (x_calls s) i = Some (Printing rest) ->
    nth_error (x_calls (fold_left (xstep header rlines) (repeat (XStep i) (S (List.length rest))) s)) i = Some (Returned true)).
  { induction rest as [| l rest IH]; intros s H; cbn [List.length repeat fold_left xstep]; rewrite H.
    - unfold set_pc. cbn [x_calls]. apply (set_nth_same _ _ _ _ H).
    - apply IH. unfold set_pc. cbn [x_calls]. apply (set_nth_same _ _ _ _ H). }
  assert (S1 : forall s, nth_error (x_calls s) i = Some (Greeted b) -> exists n, n <= List.length rlines + List.length b + 2 /\
    nth_error (x_calls (fold_left (xstep header rlines) (repeat (XStep i) n) s)) i = Some (Returned true)).
  { intros s H. exists (S (S (List.length (if x_emitted s then b else rlines ++ b)))). split; [destruct (x_emitted s); rewrite ?app_length; lia |].
    cbn [repeat fold_left]. cbn [xstep]. rewrite H. apply R. unfold set_pc. cbn [x_calls]. apply (set_nth_same _ _ _ _ H). }
  assert (S2 : forall s, nth_error (x_calls s) i = Some (Welcomed b) -> exists n, n <= List.length rlines + List.length b + 3 /\
    nth_error (x_calls (fold_left (xstep header rlines) (repeat (XStep i) n) s)) i = Some (Returned true)).
  { intros s H. destruct (S1 (xstep header rlines s (XStep i))) as (n & Ln & E).
    - cbn [xstep]. rewrite H. unfold set_pc. cbn [x_calls]. apply (set_nth_same _ _ _ _ H).
    - exists (S n). split; [lia | exact E]. }
  destruct (run_inv acts) as (w & _ & L & _ & _ & P).
  destruct (nth_error (x_calls (run acts)) i) as [p |] eqn:Hp.
  2: { apply nth_error_None in Hp. assert (i < List.length (bodies acts)) by (apply nth_error_Some; congruence). lia. }
  pose proof (P i b p Hb Hp) as Pi.
  assert (G : exists n ok, n <= List.length rlines + List.length b + 4 /\
    nth_error (x_calls (fold_left (xstep header rlines) (repeat (XStep i) n) (run acts))) i = Some (Returned ok)).
  { destruct p as [b' | b' | b' | rest | ok]; cbn [pc_ok] in Pi.
    - destruct Pi as (-> & _). destruct (x_down (run acts)) eqn:Dn.
      + exists 1, false. split; [lia |]. cbn [repeat fold_left xstep]. rewrite Hp, Dn. apply (set_nth_same _ _ _ _ Hp).
      + destruct (S2 (xstep header rlines (run acts) (XStep i))) as (n & Ln & E).
        * cbn [xstep]. rewrite Hp, Dn. apply (set_nth_same _ _ _ _ Hp).
        * exists (S n), true. split; [lia | exact E].
    - destruct Pi as (-> & _). destruct (S2 _ Hp) as (n & Ln & E). exists n, true. split; [lia | exact E].
    - destruct Pi as (-> & _). destruct (S1 _ Hp) as (n & Ln & E). exists n, true. split; [lia | exact E].
    - exists (S (List.length rest)), true. split; [| apply R, Hp]. destruct Pi as (M & _). apply (f_equal (@List.length _)) in M. rewrite app_length in M.
      unfold due in M. cbn [List.length] in M. rewrite app_length in M. destruct (match w with Some j => j =? i | None => false end); cbn in M; lia.
    - exists 0, ok. split; [lia | exact Hp]. }
  destruct G as (n & ok & Ln & E). exists n, ok. split; [exact Ln |]. unfold run, xrun. rewrite fold_left_app. exact E.
Qed.
End calls.
Print Assumptions C153_calls.
Print Assumptions C153_after_shutdown.
Print Assumptions C153_before_shutdown.
Print Assumptions C153_returns.

(** Two calls interleaved, the second printing the resource; one after shutdown. *)
Example C153_calls_nonvacuous :
  let h : line := ("Spans"%string, []) in let r : line := ("Resource"%string, []) in let l n : line := ("x"%string, [AIndex n]) in
  let s := xrun h [r] [XCall [l 1]; XCall [l 2]; XStep 0; XStep 1; XStep 1; XStep 1; XStep 0; XStep 0; XStep 0; XStep 1; XStep 1; XStep 1; XDown; XCall [l 3]; XStep 2; XStep 0] in
  x_out s = [(1, h); (0, h); (0, l 1); (1, r); (1, l 2)] /\ x_calls s = [Returned true; Returned true; Returned false].
Proof. vm_compute. split; reflexivity. Qed.

Definition C153_span : sdata :=
  mk_sdata (mk_sc 7 9 1 false None) (mk_data 3 2 [110%N] 1500 2700 [] 0 [mk_event [101%N] 1999 [] 0] 0 [mk_link (mk_sc 5 6 0 false None) [] 0] 0 Unset)
    (mk_scope [115%N] None (Some [117%N]) []).
Example C153_nonvacuous :
  map fst (print_spans [C153_span]) <> [] /\
  option_map (fun x => map v_end (fst x)) (read_spans (print_spans [C153_span])) = Some [2%Z] /\
  option_map (fun x => map v_events (fst x)) (read_spans (print_spans [C153_span])) = Some [[([101%N], 1%Z, [])]].
Proof. vm_compute. repeat split; discriminate. Qed.

(** C154: every data point of every metric can be read from the output.  It cannot: two
    exponential histograms with different points are printed alike. *)
Theorem C154_all_points_printed_refuted :
  exists m m' : metric,
    print_metric 0 m = print_metric 0 m' /\
    (exists p s t k, me_data m = DU64 (MExpo [p] s t k) /\ e_count p = 5%N) /\ (exists s t k, me_data m' = DU64 (MExpo [] s t k)).
Proof.
  exists (mk_metric [109%N] [] [] (DU64 (MExpo [mk_ep [] 5 None None 10%Z 0 0 (0%Z, [5%N]) (0%Z, []) (f64_of_Z 0) []] 0 1 Delta))),
    (mk_metric [109%N] [] [] (DU64 (MExpo [] 0 1 Delta))).
  split; [reflexivity |]. split; [do 4 eexists; split; reflexivity | do 3 eexists; reflexivity].
Qed.
Print Assumptions C154_all_points_printed_refuted.
