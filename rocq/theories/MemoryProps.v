(** Theorems for C145 and C146: the in-memory exporters. *)
From Coq Require Import List NArith ZArith Bool Lia.
From Verif Require Import Str F64 TraceModel SpanModel LogModel AttrModel KvModel OtlpModel MemoryModel.
Import ListNotations.

(** * C145: what was exported can be read back *)
(** What is exported in a list of calls after the last one that clears. *)
Fixpoint exported_since {A R} (clears : mcall A R -> bool) (cs : list (mcall A R)) (sofar : list A) : list A :=
  match cs with
  | [] => sofar
  | c :: cs => exported_since clears cs (if clears c then [] else match c with KExport b => sofar ++ b | _ => sofar end)
  end.
Definition by_reset {A R} (c : mcall A R) : bool := match c with KReset => true | _ => false end.
Definition by_reset_or_shutdown {A R} (c : mcall A R) : bool := match c with KReset | KShutdown => true | _ => false end.
Fixpoint last_resource {A R} (cs : list (mcall A R)) (r : R) : R :=
  match cs with [] => r | KSetResource r' :: cs => last_resource cs r' | _ :: cs => last_resource cs r end.

Theorem C145_spans : forall A R (cs : list (mcall A R)) r, 
  span_get (fold_left span_mem cs (mk_mem [] r false)) = exported_since by_reset_or_shutdown cs [].
Proof.
  intros A R cs r. unfold span_get. assert (H : forall m, m_items (fold_left span_mem cs m) = exported_since by_reset_or_shutdown cs (m_items m)).
  { induction cs as [|c cs IH]; intros m; [reflexivity|]. cbn. rewrite IH. destruct c; reflexivity. }
  apply H.
Qed.
Print Assumptions C145_spans.

Lemma push_all_app A (b l : list A) : push_all l b = l ++ b.
Proof. revert l. induction b as [|a b IH]; intros l; cbn; [rewrite app_nil_r; reflexivity|]. rewrite IH, <- app_assoc. reflexivity. Qed.
Theorem C145_logs : forall A R keep (cs : list (mcall A R)) r, let m := fold_left (log_mem keep) cs (mk_mem [] r false) in
  log_get m = map (fun a => (a, last_resource cs r)) (exported_since (if keep then by_reset else by_reset_or_shutdown) cs []) /\
  (m_down m = true <-> In KShutdown cs).
Proof.
  intros A R keep cs r. cbn zeta.
  assert (H : forall m, m_items (fold_left (log_mem keep) cs m) = exported_since (if keep then by_reset else by_reset_or_shutdown) cs (m_items m) /\
    m_resource (fold_left (log_mem keep) cs m) = last_resource cs (m_resource m) /\
    (m_down (fold_left (log_mem keep) cs m) = true <-> m_down m = true \/ In KShutdown cs)).
  { induction cs as [|c cs IH]; intros m; [cbn; tauto|]. cbn [fold_left]. destruct (IH (log_mem keep m c)) as (I1 & I2 & I3). rewrite I1, I2, I3. clear I1 I2 I3.
    destruct c as [b| | |r'|]; cbn [exported_since last_resource log_mem m_items m_resource]; rewrite ?push_all_app;
      destruct keep; cbn; (split; [reflexivity|]; split; [reflexivity|]); intuition (try congruence; try discriminate). }
  destruct (H (mk_mem [] r false)) as (H1 & H2 & H3). unfold log_get. rewrite H1, H2. split; [reflexivity|]. rewrite H3. cbn. intuition discriminate.
Qed.
Print Assumptions C145_logs.

Lemma clone_metrics_same m : clone_metrics m = m.
Proof.
  destruct m as [r sms]. unfold clone_metrics. cbn [fst snd]. f_equal. induction sms as [|[sc ms] sms IH]; [reflexivity|]. cbn [map fst snd]. rewrite IH. f_equal. f_equal.
  induction ms as [|me ms IH2]; [reflexivity|]. cbn [map]. rewrite IH2. f_equal. destruct me as [n d u [x|x|x]]; destruct x; reflexivity.
Qed.
Theorem C145_metrics : forall (cs : list (mcall rmetrics unit)),
  metric_get (fold_left metric_mem cs (mk_mem [] tt false)) = exported_since by_reset cs [].
Proof.
  intros cs. unfold metric_get. assert (Hid : forall l, map clone_metrics l = l).
  { induction l as [|m l IH]; [reflexivity|]. cbn. rewrite clone_metrics_same, IH. reflexivity. }
  rewrite Hid. assert (H : forall m, m_items (fold_left metric_mem cs m) = exported_since by_reset cs (m_items m)).
  { induction cs as [|c cs IH]; intros m; [reflexivity|]. cbn. rewrite IH. destruct c; cbn; rewrite ?Hid; reflexivity. }
  apply H.
Qed.
Print Assumptions C145_metrics.

(** Spans and logs that a processor exports in its shutdown are cleared by the shutdown of
    the exporter that follows; metrics are kept. *)
Theorem C145_gone_after_shutdown : forall A R (cs : list (mcall A R)) r,
  span_get (fold_left span_mem (cs ++ [KShutdown]) (mk_mem [] r false)) = [] /\
  log_get (fold_left (log_mem false) (cs ++ [KShutdown]) (mk_mem [] r false)) = [].
Proof. intros A R cs r. rewrite !fold_left_app. split; reflexivity. Qed.
Print Assumptions C145_gone_after_shutdown.
Example C145_nonvacuous :
  span_get (fold_left span_mem [KExport [1; 2]; KReset; KExport [3]; KGet; KExport [4; 5]] (mk_mem [] tt false)) = [3; 4; 5] /\
  log_get (fold_left (log_mem false) [KSetResource 7; KExport [1]; KShutdown; KExport [2]] (mk_mem [] 0 false)) = [(2, 7)].
Proof. split; reflexivity. Qed.

(** * C146: every log is reported with the resource of the provider that emitted it *)
(** Calls of two providers that share an exporter; each sets its resource when it is built. *)
Theorem C146_own_resource : forall A R (cs : list (mcall A R)) r0 r,
  (forall r', In (KSetResource r') cs -> r' = r) -> In (KSetResource r) cs ->
  forall a r', In (a, r') (log_get (fold_left (log_mem false) cs (mk_mem [] r0 false))) -> r' = r.
Proof.
  intros A R cs r0 r Hall Hin a r' H. pose proof (proj1 (C145_logs A R false cs r0)) as E. cbv zeta in E. rewrite E in H.
  apply in_map_iff in H as (a' & [= _ <-] & _). clear E a.
  assert (Hg : forall l r1, (forall x, In (@KSetResource A R x) l -> x = r) -> (r1 = r \/ In (KSetResource r) l) -> last_resource l r1 = r).
  { induction l as [|c l IH]; intros r1 Ha Hi; [cbn; destruct Hi as [Hi|[]]; exact Hi|].
    destruct c; cbn; apply IH; try (intros x Hx; apply Ha; right; exact Hx);
      try (destruct Hi as [Hi|[Hi|Hi]]; [left; exact Hi|discriminate|right; exact Hi]).
    left. apply Ha. left. reflexivity. }
  apply Hg; auto.
Qed.
Print Assumptions C146_own_resource.
Theorem C147_shared_exporter_resource_refuted : ~ (forall A R (before after : list (mcall A R)) r0 r a,
  In (KSetResource r) before -> (forall r', In (KSetResource r') before -> r' = r) -> In (KExport [a]) before ->
  forall r', In (a, r') (log_get (fold_left (log_mem false) (before ++ after) (mk_mem [] r0 false))) -> r' = r).
Proof.
  intros H. specialize (H nat nat [KSetResource 1; KExport [5]] [KSetResource 2] 0 1 5).
  assert (2 = 1); [|discriminate]. apply H; [left; reflexivity| |right; left; reflexivity|left; reflexivity].
  intros r' [E|[E|[]]]; congruence.
Qed.
Print Assumptions C147_shared_exporter_resource_refuted.
