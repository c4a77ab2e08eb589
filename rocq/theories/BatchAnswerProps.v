(** More for C33, C34 and C37: what the answer of force_flush and shutdown says
    about the exports made for that call. *)
From Coq Require Import List Arith ZArith Bool Lia.
From Coq Require Import ZifyBool ZifyNat.
From Verif Require Import ProviderModel BatchModel ProviderProps BatchProofs BatchProps.
Import ListNotations.

(** * Specification *)

(** The job the worker carries out belongs to call [id]. *)
Definition job_is (id : nat) (j : job) : bool :=
  match j with JNone => false | JFlush k | JShut k => k =? id end.
(** The batches handed to the exporter for call [id] along a run, with the
    exporter's verdict.  (A round that finds the queue empty has the batch [].) *)
Section tries.
Variables (logs : bool) (Q M : nat).
Definition try_of (id : nat) (s : bstate) (a : baction) : list (list nat * bool) :=
  match a, b_worker s with
  | WStep ok, WExport j buf _ _ _ => if job_is id j then [(buf, ok)] else []
  | _, _ => []
  end.
Fixpoint tries (id : nat) (s : bstate) (acts : list baction) : list (list nat * bool) :=
  match acts with
  | [] => []
  | a :: acts => try_of id s a ++ match bstep logs Q M s a with Some s => tries id s acts | None => [] end
  end.
End tries.
(** The last round succeeded: its export did, or it had nothing to export. *)
Definition last_ok (t : list (list nat * bool)) : bool :=
  match rev t with [] => true | ([], _) :: _ => true | (_, ok) :: _ => ok end.

(** * Proofs *)
Definition msg_is (id : nat) (m : msg) : bool :=
  match m with MExport => false | MFlush k | MShutdown k => k =? id end.
Definition waits (p : option cpc) : nat := match p with Some CWait | Some (CDone RTimeout) => 1 | _ => 0 end.
Definition before_export (w : wpc) : Prop := match w with WStart _ | WPull _ _ _ _ _ | WExport _ _ _ _ _ => True | _ => False end.
Definition verdict (w : wpc) : bool :=
  match w with WPull _ _ _ _ r | WExport _ _ _ _ r | WSub _ _ _ _ r | WReply _ r => r | _ => true end.
Definition pc_of (s : bstate) (id : nat) : option cpc := option_map c_pc (nth_error (b_ctls s) id).
Definition b2n (b : bool) : nat := if b then 1 else 0.

Record ans (logs : bool) (id : nat) (t : list (list nat * bool)) (shut : bool) (p : option cpc) (ms : list msg) (w : wpc) : Prop := mk_ans {
  n_once : cnt (msg_is id) ms + b2n (job_is id (job_of w)) <= waits p;
  n_queued : 0 < cnt (msg_is id) ms -> t = [];
  n_pc : match p with
         | None | Some CCheck | Some CSend | Some (CDone RAlready) => t = []
         | Some (CGot r) => last_ok t = r
         | Some (CDone ROk) => logs && shut = true \/ last_ok t = true
         | Some (CDone RErr) => t = [] \/ last_ok t = false
         | Some CWait | Some (CDone RTimeout) => True
         end;
  n_job : job_is id (job_of w) = true -> last_ok t = verdict w /\
            (logs = false -> before_export w -> t = []) /\ (match w with WStart _ => t = [] | _ => True end);
  n_one : logs = false -> length t <= 1 }.

Lemma last_ok_snoc t x : last_ok (t ++ [x]) = match x with ([], _) => true | (_, ok) => ok end.
Proof. unfold last_ok. rewrite rev_app_distr. destruct x as [[|? ?] ?]; reflexivity. Qed.

Lemma tries_snoc logs Q M id acts a : forall s s', brun logs Q M s acts = Some s' ->
  tries logs Q M id s (acts ++ [a]) = tries logs Q M id s acts ++ try_of id s' a.
Proof.
  induction acts as [|x acts IH]; intros s s' H; cbn [brun] in H; cbn [tries app].
  - injection H as <-. destruct (bstep logs Q M s a); rewrite app_nil_r; reflexivity.
  - destruct (bstep logs Q M s x) as [s1|] eqn:E; [|discriminate]. rewrite (IH _ _ H), app_assoc. reflexivity.
Qed.

Definition shut_of (s : bstate) (id : nat) : bool := match nth_error (b_ctls s) id with Some c => c_shut c | None => false end.
Definition invN (logs : bool) (Q M : nat) (acts : list baction) (s : bstate) : Prop :=
  forall id, ans logs id (tries logs Q M id b_init acts) (shut_of s id) (pc_of s id) (b_msgs s) (b_worker s).

Lemma pc_set i pc s id c : nth_error (b_ctls s) i = Some c ->
  pc_of (set_ctl i pc s) id = (if i =? id then Some pc else pc_of s id) /\ shut_of (set_ctl i pc s) id = shut_of s id.
Proof.
  intros H. unfold pc_of, shut_of, set_ctl. cbn [b_ctls]. rewrite H, nth_set_nth.
  destruct (Nat.eqb_spec i id) as [->|Hn]; [rewrite H|]; split; reflexivity.
Qed.
Lemma pc_add c s id : c_pc c = CCheck \/ c_pc c = CSend ->
  (pc_of (add_ctl c s) id = pc_of s id /\ shut_of (add_ctl c s) id = shut_of s id) \/
  (pc_of s id = None /\ (pc_of (add_ctl c s) id = Some CCheck \/ pc_of (add_ctl c s) id = Some CSend)).
Proof.
  intros H. unfold pc_of, shut_of, add_ctl. cbn [b_ctls].
  destruct (Nat.lt_trichotomy id (length (b_ctls s))) as [Hl|[->|Hg]].
  - rewrite nth_error_app1 by exact Hl. left. split; reflexivity.
  - right. rewrite (proj2 (nth_error_None (b_ctls s) _)) by lia. split; [reflexivity|].
    rewrite nth_error_app2, Nat.sub_diag by lia. cbn. destruct H as [-> | ->]; auto.
  - left. rewrite (proj2 (nth_error_None (b_ctls s) id)) by lia.
    rewrite (proj2 (nth_error_None (b_ctls s ++ [c]) id)) by (rewrite app_length; cbn; lia). split; reflexivity.
Qed.

(** Steps of emitters. *)
Lemma emit_frame logs Q M i s s' : emit_step logs Q M i s = Some s' ->
  b_ctls s' = b_ctls s /\ b_worker s' = b_worker s /\ (b_msgs s' = b_msgs s \/ b_msgs s' = b_msgs s ++ [MExport]).
Proof.
  unfold emit_step. destruct (nth_error (b_emits s) i) as [e|]; [|discriminate].
  destruct (e_pc e); intros H; cbv zeta in H;
  repeat (match type of H with context [if ?x then _ else _] => destruct x end);
  try discriminate; injection H as <-; cbn; auto.
Qed.

Lemma cnt_snoc_other id ms m : msg_is id m = false -> cnt (msg_is id) (ms ++ [m]) = cnt (msg_is id) ms.
Proof. intros H. rewrite cnt_app. unfold cnt at 2. cbn. rewrite H. cbn. lia. Qed.

Lemma invN_step logs Q M acts a s s' : brun logs Q M b_init acts = Some s -> invN logs Q M acts s ->
  bstep logs Q M s a = Some s' -> invN logs Q M (acts ++ [a]) s'.
Proof.
  intros Hrun HI H id. rewrite (tries_snoc _ _ _ _ _ _ _ _ Hrun). specialize (HI id).
  set (t := tries logs Q M id b_init acts) in *. clearbody t. clear Hrun.
  destruct a as [|i| | |i|i|ok|]; cbn [bstep] in H.
  - (* Emit *) injection H as <-. cbn [try_of]. rewrite app_nil_r. exact HI.
  - (* EStep *) cbn [try_of]. rewrite app_nil_r. destruct (emit_frame _ _ _ _ _ _ H) as (Hc & Hw & Hm).
    unfold pc_of, shut_of. rewrite Hc, Hw. destruct Hm as [-> | ->]; [exact HI|].
    destruct HI as [A B C D E]. split; [rewrite cnt_snoc_other by reflexivity; exact A|rewrite cnt_snoc_other by reflexivity; exact B|exact C|exact D|exact E].
  - (* Flush *) injection H as <-. cbn [try_of]. rewrite app_nil_r.
    destruct (pc_add (new_ctl logs false s) s id) as [[-> ->]|[Hn Hp]]; [cbn; destruct logs; auto|exact HI|].
    destruct HI as [A B C D E]. rewrite Hn in A, C. cbn [waits] in A.
    split; cbn [add_ctl b_msgs b_worker]; [destruct Hp as [-> | ->]; exact A|exact B|destruct Hp as [-> | ->]; exact C|exact D|exact E].
  - (* Shutdown *) injection H as <-. cbn [try_of]. rewrite app_nil_r.
    destruct (pc_add (new_ctl logs true s) s id) as [[-> ->]|[Hn Hp]]; [cbn; destruct logs; auto|exact HI|].
    destruct HI as [A B C D E]. rewrite Hn in A, C. cbn [waits] in A.
    split; cbn [add_ctl b_msgs b_worker]; [destruct Hp as [-> | ->]; exact A|exact B|destruct Hp as [-> | ->]; exact C|exact D|exact E].
  - (* CStep *) cbn [try_of]. rewrite app_nil_r. unfold ctl_step in H.
    destruct (nth_error (b_ctls s) i) as [c|] eqn:Ec; [|discriminate].
    assert (Hpc : i = id -> pc_of s id = Some (c_pc c) /\ shut_of s id = c_shut c).
    { intros <-. unfold pc_of, shut_of. rewrite Ec. split; reflexivity. }
    assert (Hset : forall pc, pc_of (set_ctl i pc s) id = (if i =? id then Some pc else pc_of s id) /\ shut_of (set_ctl i pc s) id = shut_of s id)
      by (intros pc; eapply pc_set; exact Ec).
    destruct (c_pc c) as [| | |r|r] eqn:Ep; try discriminate.
    + (* CCheck *) set (pc := if b_down s then CDone RAlready else CSend) in H.
      assert (G : ans logs id t (shut_of (set_ctl i pc s) id) (pc_of (set_ctl i pc s) id) (b_msgs s) (b_worker s)).
      { destruct (Hset pc) as [-> ->]. destruct (Nat.eqb_spec i id) as [->|Hn]; [|exact HI].
        destruct (Hpc eq_refl) as [Hp Hsh]. destruct HI as [A B C D E]. rewrite Hp in A, C. cbn [waits] in A.
        split; [destruct pc eqn:X; unfold pc in X; destruct (b_down s); try discriminate; try (injection X as <-); exact A|exact B| |exact D|exact E].
        unfold pc. destruct (b_down s); exact C. }
      injection H as <-. destruct (c_shut c); exact G.
    + (* CSend *) destruct (exited (b_worker s)) eqn:Ex.
      * injection H as <-. destruct (Hset (CDone (if logs then RAlready else RErr))) as [-> ->]. cbn [set_ctl b_msgs b_worker].
        destruct (Nat.eqb_spec i id) as [->|Hn]; [|exact HI]. destruct (Hpc eq_refl) as [Hp Hsh].
        destruct HI as [A B C D E]. rewrite Hp in A, C. cbn [waits] in A.
        split; [destruct logs; exact A|exact B|destruct logs; [exact C|left; exact C]|exact D|exact E].
      * destruct (MESSAGES <=? length (b_msgs s)).
        -- injection H as <-. destruct (Hset (CDone RErr)) as [-> ->]. cbn [set_ctl b_msgs b_worker].
           destruct (Nat.eqb_spec i id) as [->|Hn]; [|exact HI]. destruct (Hpc eq_refl) as [Hp Hsh].
           destruct HI as [A B C D E]. rewrite Hp in A, C. cbn [waits] in A.
           split; [exact A|exact B|left; exact C|exact D|exact E].
        -- injection H as <-.
           assert (HH : forall m, pc_of (set_msgs m (set_ctl i CWait s)) id = pc_of (set_ctl i CWait s) id /\
                                  shut_of (set_msgs m (set_ctl i CWait s)) id = shut_of (set_ctl i CWait s) id) by (intros; split; reflexivity).
           destruct (HH (b_msgs s ++ [if c_shut c then MShutdown i else MFlush i])) as [-> ->]. clear HH.
           destruct (Hset CWait) as [-> ->]. cbn [set_msgs set_ctl b_msgs b_worker].
           destruct HI as [A B C D E]. destruct (Nat.eqb_spec i id) as [->|Hn].
           ++ destruct (Hpc eq_refl) as [Hp Hsh]. rewrite Hp in A, C. cbn [waits] in A.
              assert (X : cnt (msg_is id) (b_msgs s ++ [if c_shut c then MShutdown id else MFlush id]) = cnt (msg_is id) (b_msgs s) + 1).
              { rewrite cnt_app. f_equal. unfold cnt. cbn. destruct (c_shut c); cbn; rewrite Nat.eqb_refl; reflexivity. }
              split; [rewrite X; cbn [waits]; lia|intros _; exact C|exact I|exact D|exact E].
           ++ assert (X : msg_is id (if c_shut c then MShutdown i else MFlush i) = false).
              { destruct (c_shut c); cbn; apply Nat.eqb_neq; exact Hn. }
              split; [rewrite cnt_snoc_other by exact X; exact A|rewrite cnt_snoc_other by exact X; exact B|exact C|exact D|exact E].
    + (* CGot *) cbv zeta in H. destruct (c_shut c && negb (exited (b_worker s))); [discriminate|]. injection H as <-.
      set (pc := CDone _). destruct (Hset pc) as [-> ->]. cbn [set_ctl b_msgs b_worker].
      destruct (Nat.eqb_spec i id) as [->|Hn]; [|exact HI]. destruct (Hpc eq_refl) as [Hp Hsh].
      destruct HI as [A B C D E]. rewrite Hp in A, C. cbn [waits] in A. rewrite Hsh. unfold pc.
      split; [destruct (c_shut c && logs), r; exact A|exact B| |exact D|exact E].
      destruct (c_shut c) eqn:S, logs, r; cbn; auto.
  - (* CTimeout *) cbn [try_of]. rewrite app_nil_r. destruct (nth_error (b_ctls s) i) as [c|] eqn:Ec; [|discriminate].
    destruct (c_pc c) eqn:Ep; try discriminate. injection H as <-.
    destruct (pc_set i (CDone RTimeout) s id c Ec) as [-> ->]. cbn [set_ctl b_msgs b_worker].
    destruct (Nat.eqb_spec i id) as [->|Hn]; [|exact HI].
    assert (Hp : pc_of s id = Some CWait) by (unfold pc_of; rewrite Ec; cbn; congruence).
    destruct HI as [A B C D E]. rewrite Hp in A. split; [exact A|exact B|exact I|exact D|exact E].
  - (* WStep *) unfold worker_step in H. unfold try_of. destruct HI as [A B C D E].
    destruct (b_worker s) as [| |j|j buf tg tot r|j buf tg tot r|j cn tg tot r|j r|] eqn:Ew; cbn [job_of job_is b2n verdict before_export] in *.
    + destruct (b_msgs s) as [|m ms] eqn:Em; [discriminate|]. injection H as <-. rewrite app_nil_r. unfold pc_of, shut_of.
      cbn [set_msgs set_worker b_msgs b_worker b_ctls]. fold (pc_of s id) (shut_of s id).
      assert (X : cnt (msg_is id) (m :: ms) = b2n (msg_is id m) + cnt (msg_is id) ms) by (unfold cnt; cbn; destruct (msg_is id m); reflexivity).
      rewrite X in A, B.
      assert (Y : job_is id (job_of (match m with MExport => WFlag | MFlush i => WStart (JFlush i) | MShutdown i => WStart (JShut i) end)) = msg_is id m)
        by (destruct m; reflexivity).
      split; [rewrite Y; lia|intros; apply B; lia|exact C| |exact E].
      rewrite Y. intros Hm. rewrite Hm in B. cbn [b2n] in B. rewrite (B ltac:(lia)). destruct m; cbn; auto.
    + injection H as <-. rewrite app_nil_r. split; cbn [set_sent set_worker b_msgs b_worker job_of job_is b2n]; try assumption. discriminate.
    + rewrite app_nil_r.
      assert (G : forall w, job_of w = j -> (job_is id j = true -> verdict w = true) -> (match w with WStart _ => False | _ => True end) ->
                ans logs id t (shut_of s id) (pc_of s id) (b_msgs s) w).
      { intros w Hj Hv Hs. split; [rewrite Hj; exact A|exact B|exact C| |exact E]. rewrite Hj. intros Hh. destruct (D Hh) as (D1 & D2 & D3).
        rewrite (Hv Hh), D3. split; [reflexivity|split; [auto|destruct w; auto]]. }
      destruct logs; [destruct (0 <? b_cbs s)%Z|]; injection H as <-; apply G; cbn; auto.
    + rewrite app_nil_r. destruct (b_queue s) as [|x q]; [|cbv zeta in H; destruct (_ =? M)]; injection H as <-;
      (split; cbn [set_queue set_worker b_msgs b_worker job_of]; [exact A|exact B|exact C| |exact E]);
      intros Hh; destruct (D Hh) as (D1 & D2 & D3); cbn [verdict before_export]; auto.
    + assert (HC : job_is id j = false -> ans logs id t (shut_of s id) (pc_of s id) (b_msgs s) (b_worker s')).
      { intros Hf. split; [|exact B|exact C| |exact E];
        (assert (Hj : job_of (b_worker s') = j) by (destruct buf; injection H as <-; reflexivity); rewrite Hj; rewrite Hf in *; first [exact A|discriminate]). }
      assert (HS : b_msgs s' = b_msgs s /\ pc_of s' id = pc_of s id /\ shut_of s' id = shut_of s id) by (destruct buf; injection H as <-; auto).
      destruct HS as (-> & -> & ->).
      destruct (job_is id j) eqn:Ej; [|rewrite app_nil_r; apply HC; reflexivity].
      destruct (D eq_refl) as (D1 & D2 & D3). cbn [b2n] in A.
      assert (Hw : exists w0, b_worker s' = w0 /\ w0 = WSub j (length buf) tg tot (match buf with [] => true | _ => ok end)).
      { eexists. split; [reflexivity|]. destruct buf; injection H as <-; reflexivity. }
      destruct Hw as (w0 & -> & ->).
      split; cbn [job_of]; [rewrite Ej; exact A| | | |].
      * intros Hq. exfalso. assert (waits (pc_of s id) <= 1) by (destruct (pc_of s id) as [[| | | |[]]|]; cbn; lia). lia.
      * assert (Hwt : waits (pc_of s id) = 1) by (destruct (pc_of s id) as [[| | | |[]]|]; cbn in A |- *; lia).
        destruct (pc_of s id) as [[| | | |[]]|]; cbn in Hwt; try discriminate; exact I.
      * intros _. rewrite last_ok_snoc. split; [destruct buf; reflexivity|]. split; [intros _ []|exact I].
      * intros L. rewrite (D2 L I). cbn. lia.
    + cbv zeta in H. injection H as <-. rewrite app_nil_r. unfold pc_of, shut_of. cbn [set_cbs set_worker b_msgs b_worker b_ctls].
      fold (pc_of s id) (shut_of s id).
      set (w' := if logs && (Z.of_nat (tot + cn) <? tg)%Z then WPull j [] tg (tot + cn) r else WReply j r).
      assert (Hw : (w' = WPull j [] tg (tot + cn) r /\ logs = true) \/ w' = WReply j r).
      { unfold w'. destruct logs, (Z.of_nat (tot + cn) <? tg)%Z; cbn [andb]; auto. }
      clearbody w'. assert (Hj : job_of w' = j) by (destruct Hw as [[-> _]| ->]; reflexivity).
      split; [rewrite Hj; exact A|exact B|exact C| |exact E]. rewrite Hj. intros Hh. destruct (D Hh) as (D1 & D2 & D3).
      destruct Hw as [[-> L]| ->]; cbn [verdict before_export]; (split; [exact D1|split; [|exact I]]); [congruence|intros _ []].
    + rewrite app_nil_r. injection H as <-.
      assert (HS : forall st, b_msgs (match j with JShut _ => if logs then exporter_shutdown st else st | _ => st end) = b_msgs st /\
         b_worker (match j with JShut _ => if logs then exporter_shutdown st else st | _ => st end) = b_worker st /\
         b_ctls (match j with JShut _ => if logs then exporter_shutdown st else st | _ => st end) = b_ctls st).
      { intros st. destruct j, logs; auto. }
      destruct (HS (set_worker (after_job j) (reply j r s))) as (Hm & Hw & Hc).
      unfold pc_of, shut_of. rewrite Hm, Hw, Hc. cbn [set_worker b_msgs b_worker b_ctls]. clear Hm Hw Hc HS.
      assert (Hmr : b_msgs (reply j r s) = b_msgs s).
      { unfold reply. destruct j as [|k|k]; [reflexivity| |]; destruct (nth_error (b_ctls s) k) as [c|]; try reflexivity; destruct (c_pc c); reflexivity. }
      rewrite Hmr.
      assert (Hja : job_is id (job_of (after_job j)) = false) by (destruct j; reflexivity).
      assert (Hws : forall p, waits p <= 1) by (intros [[| | | |[]]|]; cbn; lia).
      fold (pc_of (reply j r s) id) (shut_of (reply j r s) id).
      destruct (job_is id j) eqn:Ej.
      * destruct (D eq_refl) as (D1 & D2 & D3). cbn [b2n] in A.
        assert (Hr : (pc_of s id = Some CWait /\ pc_of (reply j r s) id = Some (CGot r)) \/
                     (pc_of s id = Some (CDone RTimeout) /\ pc_of (reply j r s) id = Some (CDone RTimeout))).
        { assert (Hwt : waits (pc_of s id) = 1) by (specialize (Hws (pc_of s id)); lia).
          assert (Hr0 : reply j r s = match nth_error (b_ctls s) id with Some c => match c_pc c with CWait => set_ctl id (CGot r) s | _ => s end | None => s end).
          { unfold reply. destruct j as [|k|k]; cbn in Ej; [discriminate| |]; apply Nat.eqb_eq in Ej; subst k; reflexivity. }
          rewrite Hr0. unfold pc_of in Hwt |- *. destruct (nth_error (b_ctls s) id) as [c|] eqn:Ec; [|discriminate].
          cbn [option_map] in *. destruct (c_pc c) as [| | |?|[]] eqn:Ep; cbn in Hwt; try discriminate.
          - left. split; [reflexivity|]. destruct (pc_set id (CGot r) s id c Ec) as [X _]. unfold pc_of in X. rewrite X, Nat.eqb_refl. reflexivity.
          - right. split; [reflexivity|]. rewrite Ec. cbn. congruence. }
        destruct Hr as [[Hp Hp']|[Hp Hp']]; rewrite Hp in A; rewrite Hp'; cbn [waits] in A;
        (split; [rewrite Hja; cbn [b2n waits]; lia|intros; lia| |rewrite Hja; discriminate|exact E]).
        -- exact D1.
        -- exact I.
      * assert (Hr : pc_of (reply j r s) id = pc_of s id /\ shut_of (reply j r s) id = shut_of s id).
        { unfold reply. destruct j as [|k|k]; [split; reflexivity| |]; cbn in Ej;
          (destruct (nth_error (b_ctls s) k) as [c|] eqn:Ec; [|split; reflexivity]);
          (destruct (c_pc c); try (split; reflexivity)); destruct (pc_set k (CGot r) s id c Ec) as [-> ->]; rewrite Ej; split; reflexivity. }
        destruct Hr as [-> ->]. split; [rewrite Hja; cbn [b2n]; cbn in A; lia|exact B|exact C|rewrite Hja; discriminate|exact E].
    + discriminate.
  - (* Tick *) cbn [try_of]. rewrite app_nil_r. destruct (b_worker s) eqn:Ew; try discriminate. destruct (b_msgs s) eqn:Em; [|discriminate].
    injection H as <-. destruct HI as [A B C D E]. unfold pc_of, shut_of. cbn [set_worker b_msgs b_worker b_ctls]. rewrite Em.
    split; cbn [job_of job_is b2n] in *; try assumption; discriminate.
Qed.

Lemma invN_reach logs Q M acts : forall s, brun logs Q M b_init acts = Some s -> invN logs Q M acts s.
Proof.
  induction acts as [|a acts IH] using rev_ind; intros s H.
  - injection H as <-. intros id. cbn [tries]. unfold pc_of, shut_of. cbn [b_init b_ctls b_msgs b_worker].
    rewrite (proj2 (nth_error_None [] id)) by (cbn; lia). split; cbn; auto; discriminate.
  - rewrite run_app in H. destruct (brun logs Q M b_init acts) as [s0|] eqn:E; [|discriminate]. cbn [brun] in H.
    destruct (bstep logs Q M s0 a) as [s1|] eqn:Es; [|discriminate]. injection H as <-.
    eapply invN_step; [exact E|apply IH; reflexivity|exact Es].
Qed.

(** * Theorems *)

(** The answer reports the last round made for the call: Ok only if that round
    did not fail (a log shutdown answers Ok regardless), an error only if it
    failed or if no round was made at all. *)
Theorem C33_C34_C37_answer_reports_last_export : forall logs Q M acts s id shut r,
  brun logs Q M b_init acts = Some s -> ctl s id shut r ->
  let t := tries logs Q M id b_init acts in
  (r = ROk -> (logs = true /\ shut = true) \/ last_ok t = true) /\
  (r = RErr -> t = [] \/ last_ok t = false) /\
  (r = RAlready -> t = []).
Proof.
  intros logs Q M acts s id shut r H (c & Hc & Hs & Hp) t.
  pose proof (n_pc _ _ _ _ _ _ _ (invN_reach logs Q M acts s H id)) as X. fold t in X.
  unfold pc_of, shut_of in X. rewrite Hc in X. cbn [option_map] in X. rewrite Hp, Hs in X.
  split; [|split]; intros ->; [|exact X|exact X]. destruct X as [X|X]; [left; apply andb_true_iff; exact X|right; exact X].
Qed.
Print Assumptions C33_C34_C37_answer_reports_last_export.

(** The span processor makes at most one export for a call, so Ok means that
    every batch exported for it was accepted by the exporter. *)
Theorem C33_C34_ok_means_export_succeeded : forall Q M acts s id shut,
  brun false Q M b_init acts = Some s -> ctl s id shut ROk ->
  length (tries false Q M id b_init acts) <= 1 /\
  forall b ok, In (b, ok) (tries false Q M id b_init acts) -> b <> [] -> ok = true.
Proof.
  intros Q M acts s id shut H Hc.
  pose proof (n_one _ _ _ _ _ _ _ (invN_reach false Q M acts s H id) eq_refl) as L. split; [exact L|].
  destruct (proj1 (C33_C34_C37_answer_reports_last_export false Q M acts s id shut ROk H Hc) eq_refl) as [[X _]|X]; [discriminate|].
  intros b ok Hin Hb. destruct (tries false Q M id b_init acts) as [|x [|y l]]; cbn in L; [destruct Hin| |lia].
  destruct Hin as [->|[]]. cbn in X. destruct b; [congruence|exact X].
Qed.
Print Assumptions C33_C34_ok_means_export_succeeded.

(** Non-vacuity: a span flush whose export fails is answered with an error, one
    whose export succeeds with Ok. *)
Example C33_answer_nonvacuous :
  let run ok := [Emit; EStep 0; EStep 0; EStep 0; Flush; CStep 0; CStep 0] ++ map WStep (repeat true 4) ++ map WStep (repeat ok 3) ++ [CStep 0] in
  (exists s, brun false 3 2 b_init (run false) = Some s /\ ctl s 0 false RErr /\ tries false 3 2 0 b_init (run false) = [([0], false)]) /\
  (exists s, brun false 3 2 b_init (run true) = Some s /\ ctl s 0 false ROk /\ tries false 3 2 0 b_init (run true) = [([0], true)]).
Proof.
  split.
  - eexists. split; [vm_compute; reflexivity|]. split; [eexists; split; [reflexivity|split; reflexivity]|vm_compute; reflexivity].
  - eexists. split; [vm_compute; reflexivity|]. split; [eexists; split; [reflexivity|split; reflexivity]|vm_compute; reflexivity].
Qed.
