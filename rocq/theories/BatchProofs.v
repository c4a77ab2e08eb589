(** Invariants of the batch processors. *)
From Coq Require Import List Arith ZArith Bool Lia.
From Coq Require Import ZifyBool ZifyNat.
From Verif Require Import ProviderModel BatchModel ProviderProps.
Import ListNotations.

(** Counting. *)
Definition cnt {A} (f : A -> bool) (l : list A) : nat := length (filter f l).
Lemma cnt_app {A} (f : A -> bool) l m : cnt f (l ++ m) = cnt f l + cnt f m.
Proof. unfold cnt. induction l as [|x l IH]; [reflexivity|]. cbn. destruct (f x); cbn; rewrite IH; reflexivity. Qed.
Lemma cnt_set {A} (f : A -> bool) : forall l i x y, nth_error l i = Some y ->
  cnt f (set_nth i x l) + (if f y then 1 else 0) = cnt f l + (if f x then 1 else 0).
Proof.
  induction l as [|z l IH]; intros [|i] x y H; try discriminate; cbn in H.
  - injection H as ->. cbn. unfold cnt. cbn. destruct (f x), (f y); cbn; lia.
  - cbn [set_nth]. specialize (IH i x y H). unfold cnt in *. cbn. destruct (f z); cbn; lia.
Qed.

Section proofs.
Variables (logs : bool) (Q M : nat).
Notation bstep := (bstep logs Q M). Notation brun := (brun logs Q M).

Ltac inv_step H :=
  match type of H with BatchModel.bstep _ _ _ _ ?a = Some _ => destruct a end; cbn [BatchModel.bstep] in H;
  unfold emit_step, ctl_step, worker_step, reply in H; cbv zeta in H;
  repeat (match type of H with context [match ?x with _ => _ end] => destruct x eqn:? end; try discriminate);
  injection H as <-.
Ltac simp := cbn [set_emit set_ctl set_worker set_queue set_msgs set_down set_sent set_cbs count_drop accept count_in export exporter_shutdown
  add_ctl add_emit b_queue b_msgs b_down b_dropped b_cbs b_sent b_worker b_exported b_exporter_shutdowns b_emits b_ctls b_accepted b_counted wbuf].
Ltac simp_in H := cbn [set_emit set_ctl set_worker set_queue set_msgs set_down set_sent set_cbs count_drop accept count_in export exporter_shutdown
  add_ctl add_emit b_queue b_msgs b_down b_dropped b_cbs b_sent b_worker b_exported b_exporter_shutdowns b_emits b_ctls b_accepted b_counted wbuf] in H.

(** * The data path *)
Record invA (s : bstate) : Prop := mk_A {
  a_fifo : b_accepted s = concat (b_exported s) ++ wbuf (b_worker s) ++ b_queue s;
  a_q : length (b_queue s) <= Q;
  a_exp : Forall (fun b => b <> [] /\ (M = 0 \/ length b <= M)) (b_exported s);
  a_buf : match b_worker s with
          | WPull _ buf _ _ _ => M = 0 \/ length buf < M
          | WExport _ buf _ _ _ => M = 0 \/ length buf <= M
          | _ => True
          end }.

Lemma invA_init : invA b_init.
Proof. split; cbn; [reflexivity|lia|constructor|exact I]. Qed.

Ltac eqs s := 
  repeat match goal with
  | E : b_worker s = _, F : context [b_worker s] |- _ => lazymatch F with E => fail | _ => rewrite E in F end
  | E : b_worker s = _ |- context [b_worker s] => rewrite E
  | E : b_queue s = _, F : context [b_queue s] |- _ => lazymatch F with E => fail | _ => rewrite E in F end
  | E : b_queue s = _ |- context [b_queue s] => rewrite E
  end.
Lemma invA_step s a s' : invA s -> bstep s a = Some s' -> invA s'.
Proof.
  intros [F Hq He Hb] H. inv_step H; eqs s; cbn [wbuf app] in *;
  (split; simp; eqs s; cbn [wbuf app after_job];
   [ rewrite ?F, ?concat_app; cbn [concat]; rewrite ?app_nil_r, <- ?app_assoc; reflexivity
   | rewrite ?app_length in *; cbn [length] in *; lia
   | first [assumption | apply Forall_app; split; [assumption|constructor; [split; [discriminate|assumption]|constructor]]]
   | rewrite ?app_length in *; cbn [length] in *; first [assumption|exact I|lia] ]).
Qed.

(** * What became of each call *)
Definition was_acc (e : ecall) : bool :=
  match e_pc e with
  | EInc a | ELoad a | ESwap a | EMsg a | EReset a => a
  | EDone OAccepted => true
  | _ => false
  end.
Definition is_counted (e : ecall) : bool :=
  match e_pc e with
  | ELoad a | ESwap a | EMsg a | EReset a => a
  | EDone OAccepted => true
  | _ => false
  end.
Definition was_dropped (e : ecall) : bool :=
  match e_pc e with
  | EInc a | ELoad a | ESwap a | EMsg a | EReset a => negb a
  | EDone ODropped => true
  | _ => false
  end.
Definition okin (em : list ecall) (ac : list nat) : Prop :=
  NoDup ac /\ forall i, In i ac <-> exists e, nth_error em i = Some e /\ was_acc e = true.

Lemma okin_same em ac i e e' : okin em ac -> nth_error em i = Some e -> was_acc e' = was_acc e -> okin (set_nth i e' em) ac.
Proof.
  intros [H1 H2] Hi Hw. split; [exact H1|]. intros j. rewrite H2. rewrite nth_set_nth.
  destruct (Nat.eqb_spec i j) as [->|]; [|reflexivity]. rewrite Hi. split.
  - intros (x & [= <-] & Hx). exists e'. split; [reflexivity|congruence].
  - intros (x & [= <-] & Hx). exists e. split; [reflexivity|congruence].
Qed.
Lemma okin_new em ac i e e' : okin em ac -> nth_error em i = Some e -> was_acc e = false -> was_acc e' = true ->
  okin (set_nth i e' em) (ac ++ [i]).
Proof.
  intros [H1 H2] Hi Hw Hw'. assert (Hn : ~ In i ac).
  { intros Hin. apply H2 in Hin. destruct Hin as (x & Hx & Hy). congruence. }
  split.
  - pose proof (Add_app i ac []) as X. rewrite app_nil_r in X. apply (proj2 (NoDup_Add X)). auto.
  - intros j. rewrite in_app_iff, H2, nth_set_nth. cbn [In]. destruct (Nat.eqb_spec i j) as [->|Hne].
    + rewrite Hi. split; [intros _; eauto|auto].
    + split; [intros [H|[H|[]]]; [exact H|congruence]|auto].
Qed.
Lemma okin_add em ac e : okin em ac -> was_acc e = false -> okin (em ++ [e]) ac.
Proof.
  intros [H1 H2] Hw. split; [exact H1|]. intros i. rewrite H2. split.
  - intros (x & Hx & Hy). exists x. split; [apply nth_snoc_old, Hx|exact Hy].
  - intros (x & Hx & Hy). destruct (nth_snoc _ _ _ _ Hx) as [H|[-> ->]]; [eauto|congruence].
Qed.

Definition late_ok (dn ex : bool) (e : ecall) : Prop :=
  e_late e = true ->
  if logs then (e_pc e = ESend \/ e_pc e = EDone ORejected) /\ ex = true
  else (e_pc e = ECheck \/ e_pc e = EDone ORejected) /\ dn = true.
Record invB (s : bstate) : Prop := mk_B {
  b_in : okin (b_emits s) (b_accepted s);
  b_late : forall i e, nth_error (b_emits s) i = Some e -> late_ok (b_down s) (exited (b_worker s)) e;
  b_drop : b_dropped s = cnt was_dropped (b_emits s);
  b_cnt : b_counted s = cnt is_counted (b_emits s);
  b_acc : length (b_accepted s) = cnt was_acc (b_emits s) }.

Lemma invB_init : invB b_init.
Proof.
  split; cbn; try reflexivity.
  - split; [constructor|]. intros i. split; [intros []|]. intros (e & H & _). destruct i; discriminate.
  - intros [|i] e H; discriminate.
Qed.

Ltac split_bools := repeat match goal with b : bool |- _ => match goal with |- context [b] => destruct b end end.
Ltac t_okin Hin :=
  first [ assumption
        | match goal with E : nth_error (b_emits ?s) ?i = Some ?e, P : e_pc ?e = _ |- okin (set_nth _ _ _) (b_accepted _) =>
            eapply okin_same; [exact Hin|exact E|unfold was_acc; rewrite P; cbn [e_pc]; unfold done; split_bools; reflexivity] end
        | match goal with E : nth_error (b_emits ?s) ?i = Some ?e, P : e_pc ?e = _ |- okin (set_nth _ _ _) (_ ++ [_]) =>
            eapply okin_new; [exact Hin|exact E|unfold was_acc; rewrite P; reflexivity|reflexivity] end
        | apply okin_add; [exact Hin|unfold was_acc; cbn [e_pc]; split_bools; reflexivity] ].
Ltac t_cnt :=
  first [ assumption
        | match goal with E : nth_error (b_emits ?s) ?i = Some ?e, P : e_pc ?e = _ |- _ = cnt ?f (set_nth ?i ?x _) =>
            let X := fresh in pose proof (cnt_set f (b_emits s) i x e E) as X; unfold was_dropped, is_counted, was_acc in *; rewrite P in X; cbn [e_pc] in X; unfold done in *;
            rewrite ?app_length; cbn [length]; repeat match goal with a : bool |- _ => match type of X with context [a] => destruct a end end; cbn [negb] in *; lia end
        | rewrite cnt_app; match goal with |- _ = _ + ?x => let X := fresh in assert (X : x = 0) by (split_bools; reflexivity); rewrite X; lia end ].
Ltac t_late Hl :=
  first [ intros; eapply Hl; eassumption
        | match goal with E : nth_error (b_emits ?s) ?i = Some ?e, P : e_pc ?e = _ |- _ =>
            let j := fresh "j" in let x := fresh "x" in let Hj := fresh "Hj" in let Hlate := fresh "Hlate" in
            intros j x Hj Hlate; rewrite nth_set_nth in Hj; destruct (Nat.eqb_spec i j);
            [ subst j; rewrite E in Hj; injection Hj as <-; cbn [e_late e_pc] in *; specialize (Hl i e E Hlate); cbn beta in Hl;
              rewrite P in Hl; destruct logs; destruct Hl as [[?|?] ?]; try discriminate; cbn [exited] in *; split; auto; congruence
            | pose proof (Hl j x Hj Hlate); destruct logs; intuition congruence ] end
        | let j := fresh "j" in let x := fresh "x" in let Hj := fresh "Hj" in let Hlate := fresh "Hlate" in
          intros j x Hj Hlate; destruct (nth_snoc _ _ _ _ Hj) as [Hj'|[-> ->]]; [exact (Hl j x Hj' Hlate)|cbn [e_late e_pc] in *; destruct logs; split; auto]
        | intros; match goal with X : nth_error (b_emits _) _ = Some _ |- late_ok _ _ _ =>
            let Y := fresh in pose proof (Hl _ _ X) as Y; unfold late_ok in *; destruct logs; cbn [exited] in *; intuition (try discriminate; try congruence) end
        | idtac ].

Lemma invB_step s a s' : invB s -> bstep s a = Some s' -> invB s'.
Proof.
  intros [Hin Hl Hd Hc Ha] H. inv_step H; 
  (split; simp; eqs s; cbn [after_job exited] in *;
   repeat match goal with E : nth_error (b_emits s) _ = Some _ |- _ => rewrite E end;
   repeat match goal with E : nth_error (b_ctls s) _ = Some _ |- _ => rewrite E end;
   [ t_okin Hin | t_late Hl | t_cnt | t_cnt | t_cnt ]).

Qed.

(** * The counter (log records) *)
Definition subbed (s : bstate) : Z :=
  (Z.of_nat (length (concat (b_exported s))) - match b_worker s with WSub _ c _ _ _ => Z.of_nat c | _ => 0 end)%Z.
Record invC (s : bstate) : Prop := mk_C {
  c_cbs : b_cbs s = ((Z.of_nat (b_counted s) - subbed s) mod W)%Z;
  c_noinc : forall i e, nth_error (b_emits s) i = Some e -> e_pc e <> EInc false }.
Lemma W_pos : (0 < W)%Z.
Proof. reflexivity. Qed.
Lemma invC_init : invC b_init.
Proof. split; [reflexivity|]. intros [|i] e H; discriminate. Qed.
Lemma invC_step s a s' : logs = true -> invC s -> bstep s a = Some s' -> invC s'.
Proof.
  intros L [Hc Hn] H. inv_step H; try congruence;
  (split; unfold subbed in *; simp; eqs s; cbn [after_job] in *;
   repeat match goal with E : nth_error (b_emits s) _ = Some _ |- _ => rewrite E end;
   repeat match goal with E : nth_error (b_ctls s) _ = Some _ |- _ => rewrite E end;
   [ first [ rewrite ?concat_app, ?app_length; cbn [concat]; rewrite ?app_nil_r; rewrite Hc; try reflexivity;
             match goal with E : nth_error (b_emits s) ?i = Some ?e, P : e_pc ?e = EInc ?acc |- _ => destruct acc; [|exfalso; exact (Hn i e E P)] end;
             rewrite Z.add_mod_idemp_l by discriminate; f_equal; lia
           | rewrite ?concat_app, ?app_length; cbn [concat]; rewrite ?app_nil_r; rewrite Hc; rewrite ?Zminus_mod_idemp_l; f_equal; cbn [length]; lia
           | idtac ]
   | first [ exact Hn
           | match goal with E : nth_error (b_emits s) ?i = Some ?e, P : e_pc ?e = _ |- _ =>
               let j := fresh "j" in let x := fresh "x" in let Hj := fresh "Hj" in
               intros j x Hj; rewrite nth_set_nth in Hj; destruct (Nat.eqb_spec i j);
               [ subst j; rewrite E in Hj; injection Hj as <-; cbn [e_pc]; unfold done; first [discriminate | destruct acc; discriminate | congruence] | exact (Hn j x Hj) ] end
           | let j := fresh "j" in let x := fresh "x" in let Hj := fresh "Hj" in
             intros j x Hj; destruct (nth_snoc _ _ _ _ Hj) as [Hj'|[-> ->]]; [exact (Hn _ _ Hj')|rewrite L; discriminate]
           | idtac ] ]).
Qed.

(** * What flush and shutdown wait for *)
Definition ghost (c : ccall) : nat * nat * nat := (c_acc c, c_counted c, c_pulled c).
Definition bound_of (g : nat * nat * nat) : nat :=
  let '(a, k, p) := g in
  if logs then k else if M =? 0 then a else Nat.min a (p + M).
Definition job_ok (j : job) (gs : list (nat * nat * nat)) (P : nat * nat * nat -> Prop) : Prop :=
  match j with
  | JNone => True
  | JFlush id | JShut id => forall g, nth_error gs id = Some g -> P g
  end.
Definition phase_ok (w : wpc) (gs : list (nat * nat * nat)) (E : nat) : Prop :=
  match w with
  | WPull j _ t tot _ => job_ok j gs (fun '(a, k, p) => if logs then (Z.of_nat k + Z.of_nat tot <= Z.of_nat E + t)%Z else p <= E)
  | WExport j buf t tot _ => job_ok j gs (fun '(a, k, p) => if logs then (Z.of_nat k + Z.of_nat tot <= Z.of_nat E + t)%Z else bound_of (a, k, p) <= E + length buf)
  | WSub j c t tot _ => job_ok j gs (fun '(a, k, p) => if logs then (Z.of_nat k + Z.of_nat tot + Z.of_nat c <= Z.of_nat E + t)%Z else bound_of (a, k, p) <= E)
  | WReply j _ => job_ok j gs (fun g => bound_of g <= E)
  | _ => True
  end.
Definition id_ok (n : nat) (m : msg) : Prop := match m with MExport => True | MFlush i | MShutdown i => i < n end.
Definition job_id_ok (n : nat) (j : job) : Prop := match j with JNone => True | JFlush i | JShut i => i < n end.
Definition worker_id_ok (n : nat) (w : wpc) : Prop :=
  match w with WStart j | WPull j _ _ _ _ | WExport j _ _ _ _ | WSub j _ _ _ _ | WReply j _ => job_id_ok n j | _ => True end.
Record invD (s : bstate) : Prop := mk_D {
  d_msgs : Forall (id_ok (length (b_ctls s))) (b_msgs s);
  d_job : worker_id_ok (length (b_ctls s)) (b_worker s);
  d_mono : forall a k p, In (a, k, p) (map ghost (b_ctls s)) -> a <= length (b_accepted s) /\ k <= b_counted s /\ p <= pulled s;
  d_phase : phase_ok (b_worker s) (map ghost (b_ctls s)) (length (concat (b_exported s)));
  d_done : forall id c, nth_error (b_ctls s) id = Some c -> (exists r, c_pc c = CGot r) \/ c_pc c = CDone ROk ->
           bound_of (ghost c) <= length (concat (b_exported s)) }.
Lemma invD_init : invD b_init.
Proof. split; [constructor|exact I|intros a k p []|exact I|]. intros [|i] c H; discriminate. Qed.

Lemma map_ghost_set : forall l i c c', nth_error l i = Some c -> ghost c' = ghost c -> map ghost (set_nth i c' l) = map ghost l.
Proof.
  induction l as [|x l IH]; intros [|i] c c' H Hg; try discriminate; cbn in *.
  - injection H as ->. rewrite Hg. reflexivity.
  - f_equal. eapply IH; eassumption.
Qed.
Lemma job_ok_impl j gs (P R : nat * nat * nat -> Prop) : (forall g, In g gs -> P g -> R g) -> job_ok j gs P -> job_ok j gs R.
Proof. intros H. destruct j; cbn; auto; intros H' g Hg; apply H; [eapply nth_error_In, Hg|auto|eapply nth_error_In, Hg|auto]. Qed.
Lemma job_ok_all j gs (R : nat * nat * nat -> Prop) : (forall g, In g gs -> R g) -> job_ok j gs R.
Proof. intros H. destruct j; cbn; auto; intros g Hg; apply H; eapply nth_error_In, Hg. Qed.
Lemma job_ok_snoc j gs g (P : nat * nat * nat -> Prop) : job_id_ok (length gs) j -> job_ok j gs P -> job_ok j (gs ++ [g]) P.
Proof.
  intros Hi H. destruct j as [|i|i]; cbn in *; auto; intros g' H'; destruct (nth_snoc _ _ _ _ H') as [?|[-> ->]]; auto; lia.
Qed.
Lemma phase_ok_snoc w gs g E : worker_id_ok (length gs) w -> phase_ok w gs E -> phase_ok w (gs ++ [g]) E.
Proof. destruct w; cbn; auto; apply job_ok_snoc. Qed.

Definition worker_act (a : baction) : bool := match a with WStep _ | Tick => true | _ => false end.

(** Steps of the other threads. *)
Lemma frame s a s' : bstep s a = Some s' -> worker_act a = false ->
  b_worker s' = b_worker s /\ b_exported s' = b_exported s /\
  length (b_accepted s) <= length (b_accepted s') /\ b_counted s <= b_counted s' /\
  (exists m, b_msgs s' = b_msgs s ++ m /\ Forall (id_ok (length (b_ctls s'))) m) /\
  ((exists id c pc, nth_error (b_ctls s) id = Some c /\ (forall r, pc <> CGot r) /\ (pc = CDone ROk -> exists r, c_pc c = CGot r) /\
      b_ctls s' = set_nth id (mk_c (c_shut c) (c_acc c) (c_counted c) (c_pulled c) pc) (b_ctls s))
   \/ (exists sh, b_ctls s' = b_ctls s ++ [new_ctl logs sh s] /\ b_accepted s' = b_accepted s /\ b_counted s' = b_counted s)
   \/ b_ctls s' = b_ctls s).
Proof.
  intros H Ha. inv_step H; try discriminate; simp;
  repeat match goal with E : nth_error (b_emits s) _ = Some _ |- _ => rewrite E end;
  repeat match goal with E : nth_error (b_ctls s) _ = Some _ |- _ => rewrite E end;
  (split; [reflexivity|]); (split; [reflexivity|]);
  (split; [rewrite ?app_length; lia|]); (split; [try lia; destruct acc; lia|]);
  (split; [ first [ exists []; rewrite app_nil_r; split; [reflexivity|constructor]
                  | eexists; split; [reflexivity|]; constructor; [|constructor]; cbn [id_ok]; rewrite ?set_nth_length; try exact I;
                    match goal with E : nth_error (b_ctls s) _ = Some _ |- _ => apply nth_error_Some; rewrite E; discriminate end ]
          | first [ right; right; reflexivity
                  | right; left; eexists; split; [reflexivity|split; reflexivity]
                  | left; do 3 eexists; split; [eassumption|]; split; [|split; [|reflexivity]]; intros; try discriminate; eauto; try congruence ] ]).
Qed.

Lemma cnt_le {A} (f g : A -> bool) l : (forall x, f x = true -> g x = true) -> cnt f l <= cnt g l.
Proof.
  intros H. unfold cnt. induction l as [|x l IH]; cbn; [lia|]. destruct (f x) eqn:E; [rewrite (H x E); cbn; lia|].
  destruct (g x); cbn; lia.
Qed.
Lemma counted_le s : invB s -> b_counted s <= length (b_accepted s).
Proof.
  intros B. rewrite (b_cnt s B), (b_acc s B). apply cnt_le. intros e. unfold is_counted, was_acc. destruct (e_pc e); auto; discriminate.
Qed.

Lemma invD_worker s ok s' : (Z.of_nat Q < W)%Z -> invA s -> invB s -> (logs = true -> invC s) -> invD s ->
  worker_step logs M ok s = Some s' -> invD s'.
Proof.
  intros HQ A B C [Dm Dj Dmono Dp Dd] H.
  assert (Hl : length (b_accepted s) = length (concat (b_exported s)) + length (wbuf (b_worker s)) + length (b_queue s)).
  { rewrite (a_fifo s A), !app_length. lia. }
  pose proof (a_q s A) as Hq. pose proof (a_buf s A) as Hbuf. pose proof (counted_le s B) as Hcl.
  unfold worker_step in H. unfold pulled in *. destruct (b_worker s) as [| |j|j buf t tot r|j buf t tot r|j c t tot r|j r|] eqn:Ew; cbn [wbuf length] in *.
  - destruct (b_msgs s) as [|m ms] eqn:Em; [discriminate|]. injection H as <-. inversion Dm as [|x y D1 D2]; subst.
    split; simp; unfold pulled; simp.
    + assumption.
    + destruct m; cbn in *; auto.
    + destruct m; cbn [wbuf length]; exact Dmono.
    + destruct m; exact I.
    + exact Dd.
  - injection H as <-. split; simp; unfold pulled; simp; auto; exact I.
  - destruct logs eqn:L.
    + specialize (C eq_refl). pose proof (c_cbs s C) as Hc. unfold subbed in Hc. rewrite Ew in Hc.
      injection H as <-. destruct (Z.ltb_spec 0 (b_cbs s)) as [Hz|Hz]; (split; simp; unfold pulled; simp; cbn [wbuf length]; [assumption|assumption|exact Dmono| |exact Dd]).
      * cbn [phase_ok]. apply job_ok_all. intros [[a k] p] Hg. destruct (Dmono a k p Hg) as (_ & Hk & _). rewrite L.
        assert (Z.of_nat (b_counted s) - Z.of_nat (length (concat (b_exported s))) <= b_cbs s)%Z; [|lia].
        destruct (Z.le_gt_cases (Z.of_nat (b_counted s)) (Z.of_nat (length (concat (b_exported s))))) as [Hn|Hn]; [lia|].
        rewrite Hc, Z.mod_small by lia. lia.
      * cbn [phase_ok]. apply job_ok_all. intros [[a k] p] Hg. destruct (Dmono a k p Hg) as (_ & Hk & _). unfold bound_of. rewrite L.
        destruct (Z.le_gt_cases (Z.of_nat (b_counted s)) (Z.of_nat (length (concat (b_exported s))))) as [Hn|Hn]; [lia|].
        rewrite Hc, Z.mod_small in Hz by lia. lia.
    + injection H as <-. split; simp; unfold pulled; simp; cbn [wbuf length]; [assumption|assumption|exact Dmono| |exact Dd].
      cbn [phase_ok]. rewrite L. apply job_ok_all. intros [[a k] p] Hg. destruct (Dmono a k p Hg) as (_ & _ & Hp). lia.
  - destruct (b_queue s) as [|x q] eqn:Eq.
    + injection H as <-. split; simp; unfold pulled; simp; cbn [wbuf length]; [assumption|assumption|exact Dmono| |exact Dd].
      cbn [phase_ok] in *. revert Dp. apply job_ok_impl. intros [[a k] p] Hg. destruct logs eqn:L; [auto|].
      destruct (Dmono a k p Hg) as (Ha & _ & _). cbn [length] in Hl. intros _. unfold bound_of. rewrite L. destruct (M =? 0); lia.
    + injection H as <-. assert (Hlen : length (buf ++ [x]) = S (length buf)) by (rewrite app_length; cbn [length]; lia).
      destruct (Nat.eqb_spec (length (buf ++ [x])) M) as [HM|HM];
      (split; simp; unfold pulled; simp; cbn [wbuf]; [assumption|assumption| | |exact Dd]).
      * intros a k p Hg. destruct (Dmono a k p Hg) as (? & ? & ?). lia.
      * cbn [phase_ok] in *. revert Dp. apply job_ok_impl. intros [[a k] p] Hg. destruct logs eqn:L; [auto|].
        intros Hp. unfold bound_of. rewrite L. destruct (Nat.eqb_spec M 0); lia.
      * intros a k p Hg. destruct (Dmono a k p Hg) as (? & ? & ?). lia.
      * exact Dp.
  - destruct buf as [|x buf].
    + injection H as <-. split; simp; unfold pulled; simp; cbn [wbuf length] in *; [assumption|assumption|exact Dmono| |exact Dd].
      cbn [phase_ok] in *. revert Dp. apply job_ok_impl. intros [[a k] p] Hg. cbn beta iota. destruct logs; cbn [length]; intros; lia.
    + injection H as <-.
      assert (HE : length (concat (b_exported s ++ [x :: buf])) = length (concat (b_exported s)) + length (x :: buf)).
      { rewrite concat_app, app_length. cbn [concat]. rewrite app_nil_r. reflexivity. }
      split; simp; unfold pulled; simp; cbn [wbuf]; rewrite ?HE; [assumption|assumption| | |].
      * intros a k p Hg. destruct (Dmono a k p Hg) as (? & ? & ?). cbn [length] in *. lia.
      * cbn [phase_ok] in *. revert Dp. apply job_ok_impl. intros [[a k] p] Hg. cbn beta iota. destruct logs; intros; cbn [length] in *; lia.
      * intros id c Hid Hc. specialize (Dd id c Hid Hc). lia.
  - injection H as <-. split; simp; unfold pulled; simp; [assumption| | | |exact Dd].
    + destruct (logs && _); exact Dj.
    + destruct (logs && _); cbn [wbuf length]; exact Dmono.
    + destruct logs eqn:L; cbn [andb].
      * destruct (Z.ltb_spec (Z.of_nat (tot + c)) t) as [Ht|Ht]; cbn [phase_ok] in *; revert Dp; apply job_ok_impl; intros [[a k] p] Hg.
        { rewrite L. lia. }
        { unfold bound_of. rewrite L. lia. }
      * cbn [phase_ok] in *. revert Dp. apply job_ok_impl. intros [[a k] p] Hg. rewrite L. auto.
  - injection H as <-.
    assert (Hg : exists cs, b_ctls (reply j r s) = cs /\ map ghost cs = map ghost (b_ctls s) /\ length cs = length (b_ctls s) /\
      forall id c, nth_error cs id = Some c -> (exists r, c_pc c = CGot r) \/ c_pc c = CDone ROk -> bound_of (ghost c) <= length (concat (b_exported s))).
    { assert (Hsame : exists cs, b_ctls s = cs /\ map ghost cs = map ghost (b_ctls s) /\ length cs = length (b_ctls s) /\
        forall id c, nth_error cs id = Some c -> (exists r, c_pc c = CGot r) \/ c_pc c = CDone ROk -> bound_of (ghost c) <= length (concat (b_exported s))) by eauto.
      assert (Hone : forall id, (j = JFlush id \/ j = JShut id) -> exists cs, b_ctls (reply j r s) = cs /\ map ghost cs = map ghost (b_ctls s) /\ length cs = length (b_ctls s) /\
        forall id c, nth_error cs id = Some c -> (exists r, c_pc c = CGot r) \/ c_pc c = CDone ROk -> bound_of (ghost c) <= length (concat (b_exported s))).
      { intros id Hj. assert (Hr : reply j r s = match nth_error (b_ctls s) id with
            | Some c => match c_pc c with CWait => set_ctl id (CGot r) s | _ => s end | None => s end) by (destruct Hj; subst; reflexivity).
        rewrite Hr. destruct (nth_error (b_ctls s) id) as [c|] eqn:Eid; [|exact Hsame].
        destruct (c_pc c) eqn:Epc; try exact Hsame. eexists. split; [reflexivity|]. simp. rewrite Eid. split.
        - eapply map_ghost_set; [exact Eid|reflexivity].
        - split; [apply set_nth_length|]. intros id' c' Hc' Hpc. rewrite nth_set_nth in Hc'.
          destruct (Nat.eqb_spec id id') as [<-|]; [|eauto]. rewrite Eid in Hc'. injection Hc' as <-. cbn [ghost c_acc c_counted c_pulled].
          cbn [phase_ok] in Dp. assert (Hn : nth_error (map ghost (b_ctls s)) id = Some (ghost c)) by (apply map_nth_error, Eid).
          destruct Hj; subst j; exact (Dp _ Hn). }
      destruct j as [|id|id]; [exact Hsame|apply (Hone id); auto|apply (Hone id); auto]. }
    destruct Hg as (cs & Hcs & Hmap & Hlen & Hdone).
    assert (Hrest : b_msgs (reply j r s) = b_msgs s /\ b_exported (reply j r s) = b_exported s /\ b_accepted (reply j r s) = b_accepted s /\ b_counted (reply j r s) = b_counted s).
    { destruct j as [|id|id]; cbn [reply]; auto; destruct (nth_error (b_ctls s) id) as [c|]; auto; destruct (c_pc c); auto. }
    destruct Hrest as (R1 & R2 & R3 & R4).
    assert (Hfin : forall s', b_ctls s' = cs -> b_msgs s' = b_msgs s -> b_exported s' = b_exported s -> b_accepted s' = b_accepted s ->
       b_counted s' = b_counted s -> b_worker s' = after_job j -> invD s').
    { intros s' E1 E2 E3 E4 E5 E6. split; unfold pulled; rewrite ?E1, ?E2, ?E3, ?E4, ?E5, ?E6.
      - rewrite Hlen. assumption.
      - destruct j; exact I.
      - rewrite Hmap. destruct j; cbn [after_job wbuf length]; exact Dmono.
      - destruct j; exact I.
      - exact Hdone. }
    destruct j; [| |destruct logs]; apply Hfin; simp; auto.
  - discriminate.
Qed.

Lemma invD_step s a s' : (Z.of_nat Q < W)%Z -> invA s -> invB s -> (logs = true -> invC s) -> invD s -> bstep s a = Some s' -> invD s'.
Proof.
  intros HQ A B C D H. destruct (worker_act a) eqn:Ea.
  - destruct a; try discriminate; [exact (invD_worker s ok s' HQ A B C D H)|]. cbn in H.
    destruct (b_worker s) eqn:Ew; try discriminate. destruct (b_msgs s) eqn:Em; [|discriminate]. injection H as <-. destruct D as [Dm Dj Dmono Dp Dd].
    unfold pulled in *. rewrite Ew in *. split; unfold pulled; simp; auto; exact I.
  - destruct (frame s a s' H Ea) as (Hw & He & Hac & Hk & (m & Hm & Hmok) & Hcs). destruct D as [Dm Dj Dmono Dp Dd].
    assert (Hpl : pulled s' = pulled s) by (unfold pulled; rewrite Hw, He; reflexivity).
    destruct Hcs as [(id & c & pc & Hid & Hpc & Hok & Hcs)|[(sh & Hcs & Hac' & Hk')|Hcs]].
    + assert (Hlen : length (b_ctls s') = length (b_ctls s)) by (rewrite Hcs; apply set_nth_length).
      assert (Hmap : map ghost (b_ctls s') = map ghost (b_ctls s)) by (rewrite Hcs; eapply map_ghost_set; [exact Hid|reflexivity]).
      split; rewrite ?Hpl, ?Hw, ?He, ?Hmap.
      * rewrite Hm. apply Forall_app. split; [rewrite Hlen; exact Dm|exact Hmok].
      * rewrite Hlen. exact Dj.
      * intros a' k p Hg. destruct (Dmono _ _ _ Hg) as (? & ? & ?). lia.
      * exact Dp.
      * intros id' c' Hc' Hp'. rewrite Hcs, nth_set_nth in Hc'. destruct (Nat.eqb_spec id id') as [<-|]; [|eauto].
        rewrite Hid in Hc'. injection Hc' as <-. cbn [c_pc] in Hp'. cbn [ghost c_acc c_counted c_pulled].
        apply (Dd id c Hid). destruct Hp' as [[r Hp']|Hp']; [exfalso; exact (Hpc r Hp')|left; auto].
    + assert (Hlen : length (b_ctls s') = S (length (b_ctls s))) by (rewrite Hcs, app_length; cbn [length]; lia).
      split; rewrite ?Hpl, ?Hw, ?He.
      * rewrite Hm. apply Forall_app. split; [|exact Hmok]. eapply Forall_impl; [|exact Dm]. intros x. rewrite Hlen. destruct x; cbn; auto; lia.
      * rewrite Hlen. destruct (b_worker s); cbn in *; auto; destruct j; cbn in *; auto.
      * rewrite Hcs, map_app, Hac', Hk'. intros a' k p Hg. apply in_app_iff in Hg. destruct Hg as [Hg|[Hg|[]]]; [auto|].
        injection Hg as <- <- <-. lia.
      * rewrite Hcs, map_app. cbn [map]. apply phase_ok_snoc; [rewrite map_length; exact Dj|exact Dp].
      * rewrite Hcs. intros id c Hc Hp. destruct (nth_snoc _ _ _ _ Hc) as [Hc'|[-> ->]]; [eauto|].
        unfold new_ctl in Hp. cbn [c_pc] in Hp. destruct logs, Hp as [[r Hp]|Hp]; discriminate.
    + split; rewrite ?Hpl, ?Hw, ?He, ?Hcs.
      * rewrite Hm. apply Forall_app. split; [exact Dm|rewrite Hcs in Hmok; exact Hmok].
      * exact Dj.
      * intros a' k p Hg. destruct (Dmono _ _ _ Hg) as (? & ? & ?). lia.
      * exact Dp.
      * exact Dd.
Qed.

(** * Shutdown, answers *)
Definition job_of (w : wpc) : job :=
  match w with WStart j | WPull j _ _ _ _ | WExport j _ _ _ _ | WSub j _ _ _ _ | WReply j _ => j | _ => JNone end.
Definition ctl_ok (dn ex : bool) (ms : list msg) (j : job) (id : nat) (c : ccall) : Prop :=
  (c_shut c = true -> c_pc c = CDone ROk -> ex = true) /\
  (logs = false -> c_shut c = true -> c_pc c <> CCheck -> dn = true) /\
  (c_pc c = CWait -> In (if c_shut c then MShutdown id else MFlush id) ms \/ j = (if c_shut c then JShut id else JFlush id) \/ ex = true).
Record invE (s : bstate) : Prop := mk_E {
  e_chk : logs = true -> forall i e, nth_error (b_emits s) i = Some e -> e_pc e <> ECheck;
  e_rej : forall i e, nth_error (b_emits s) i = Some e -> e_pc e = EDone ORejected -> if logs then exited (b_worker s) = true else b_down s = true;
  e_ctl : forall id c, nth_error (b_ctls s) id = Some c -> ctl_ok (b_down s) (exited (b_worker s)) (b_msgs s) (job_of (b_worker s)) id c;
  e_xsd : b_exporter_shutdowns s = if logs && exited (b_worker s) then 1 else 0 }.
Lemma invE_init : invE b_init.
Proof. split; [intros _ [|i] e H; discriminate|intros [|i] e H; discriminate|intros [|i] e H; discriminate|]. cbn. rewrite andb_false_r. reflexivity. Qed.

Lemma ctl_ok_mono dn dn' ex ex' ms ms' j j' id c :
  (dn = true -> dn' = true) -> (ex = true -> ex' = true) ->
  (forall m, In m ms -> In m ms' \/ j' = (match m with MExport => j' | MFlush i => JFlush i | MShutdown i => JShut i end)) ->
  (j = JNone \/ j' = j) -> ctl_ok dn ex ms j id c -> ctl_ok dn' ex' ms' j' id c.
Proof.
  intros H1 H2 H3 H4 (A & B & C). split; [auto|split; [auto|]]. intros Hc. destruct (C Hc) as [Hm|[Hj|Hx]]; [| |auto].
  - destruct (H3 _ Hm) as [?|Hj']; [auto|]. right; left. destruct (c_shut c); exact Hj'.
  - destruct H4 as [->| ->]; [destruct (c_shut c); discriminate|auto].
Qed.

Lemma exited_step s a s' : bstep s a = Some s' -> exited (b_worker s) = true -> b_worker s' = WExited /\ b_exported s' = b_exported s /\ b_queue s' = b_queue s.
Proof.
  intros H Hx. assert (Ew : b_worker s = WExited) by (destruct (b_worker s); try discriminate; reflexivity).
  inv_step H; simp; try (rewrite Ew in *; cbn [exited] in *; discriminate); auto.
Qed.
Lemma down_step s a s' : bstep s a = Some s' -> b_down s = true -> b_down s' = true.
Proof. intros H Hx. inv_step H; simp; auto. Qed.

Lemma reply_ctl j r s id c : nth_error (b_ctls (reply j r s)) id = Some c ->
  (exists c0, nth_error (b_ctls s) id = Some c0 /\ c = mk_c (c_shut c0) (c_acc c0) (c_counted c0) (c_pulled c0) (CGot r) /\
     c_pc c0 = CWait /\ (j = JFlush id \/ j = JShut id)) \/
  (nth_error (b_ctls s) id = Some c /\ (c_pc c = CWait -> j <> JFlush id /\ j <> JShut id)).
Proof.
  intros H.
  assert (Hk : forall k, (j = JFlush k \/ j = JShut k) ->
     nth_error (b_ctls match nth_error (b_ctls s) k with Some c => match c_pc c with CWait => set_ctl k (CGot r) s | _ => s end | None => s end) id = Some c ->
     (exists c0, nth_error (b_ctls s) id = Some c0 /\ c = mk_c (c_shut c0) (c_acc c0) (c_counted c0) (c_pulled c0) (CGot r) /\
        c_pc c0 = CWait /\ (j = JFlush id \/ j = JShut id)) \/
     (nth_error (b_ctls s) id = Some c /\ (c_pc c = CWait -> j <> JFlush id /\ j <> JShut id))).
  { intros k Hj H'. destruct (Nat.eq_dec k id) as [->|Hne].
    - destruct (nth_error (b_ctls s) id) as [x|] eqn:E; [|congruence].
      destruct (c_pc x) eqn:Ep; try (right; rewrite E in H'; injection H' as <-; split; [reflexivity|congruence]).
      left. exists x. simp_in H'. rewrite E, nth_set_nth, Nat.eqb_refl, E in H'. injection H' as <-. auto.
    - right. assert (Hsame : nth_error (b_ctls s) id = Some c).
      { destruct (nth_error (b_ctls s) k) as [x|] eqn:E; [|exact H']. destruct (c_pc x); try exact H'.
        simp_in H'. rewrite E, nth_set_nth in H'. destruct (Nat.eqb_spec k id); [congruence|exact H']. }
      split; [exact Hsame|]. intros _. split; intros ->; destruct Hj; congruence. }
  destruct j as [|k|k]; [right; split; [exact H|split; discriminate]|apply (Hk k); auto|apply (Hk k); auto].
Qed.

Lemma invE_step s a s' : invE s -> bstep s a = Some s' -> invE s'.
Proof.
  intros [Hk Hr Hc Hx] H. pose proof (down_step _ _ _ H) as Hdn. pose proof (fun E => proj1 (exited_step _ _ _ H E)) as Hex0.
  assert (Hex : exited (b_worker s) = true -> exited (b_worker s') = true) by (intros E; rewrite (Hex0 E); reflexivity). clear Hex0.
  split.
  - intros L i e Hi. clear Hdn Hex Hc Hx Hr. specialize (Hk L). revert Hi. inv_step H; simp; intros Hi; try exact (Hk i e Hi);
    repeat match goal with E : nth_error (b_emits s) ?k = Some _, X : context [nth_error (b_emits s) ?k] |- _ => lazymatch X with E => fail | _ => rewrite E in X end end;
    rewrite ?nth_set_nth in Hi; repeat match type of Hi with context [Nat.eqb ?k i] => destruct (Nat.eqb_spec k i) as [<-|] end; try (exact (Hk _ _ Hi));
    repeat match goal with E : nth_error (b_emits s) ?k = Some _, X : context [nth_error (b_emits s) ?k] |- _ => lazymatch X with E => fail | _ => rewrite E in X end end;
    try (injection Hi as <-; unfold done; cbn; discriminate).
    destruct (nth_snoc _ _ _ _ Hi) as [Hi'|[-> ->]]; [eauto|rewrite L; discriminate].
  - intros i e Hi He. 
    assert (Hcase : (exists e0, nth_error (b_emits s) i = Some e0 /\ e_pc e0 = EDone ORejected) \/ (if logs then exited (b_worker s) = true else b_down s = true)).
    { clear Hdn Hex Hc Hx. destruct (nth_error (b_emits s) i) as [e0|] eqn:E0.
      - assert (Hd : e_pc e0 = EDone ORejected \/ e_pc e0 <> EDone ORejected).
        { destruct (e_pc e0); try (right; discriminate). destruct o; auto; right; discriminate. }
        destruct Hd as [Ep|Ep]; [left; exists e0; split; [reflexivity|exact Ep]|].
        revert Hi; inv_step H; simp; eqs s;
        repeat match goal with E : nth_error (b_emits s) ?k = Some _ |- context [nth_error (b_emits s) ?k] => rewrite E end;
        rewrite ?nth_set_nth, ?(nth_snoc_old _ _ _ _ E0);
        repeat match goal with |- context [Nat.eqb ?k i] => destruct (Nat.eqb_spec k i) as [<-|] end; rewrite ?E0;
        intros Hi; try congruence; injection Hi as <-; cbn [e_pc] in He; unfold done in He; try congruence;
        try match type of He with EDone (if ?a then _ else _) = _ => destruct a; discriminate end; right; pose proof (fun L => Hk L _ _ E0); destruct logs; cbn [exited]; try congruence.
        all: try match goal with F : true = true -> _ |- _ => specialize (F eq_refl); congruence end.
      - revert Hi; inv_step H; simp; intros Hi; 
        repeat match goal with E : nth_error (b_emits s) ?k = Some _, X : context [nth_error (b_emits s) ?k] |- _ => lazymatch X with E => fail | _ => rewrite E in X end end;
        rewrite ?nth_set_nth in Hi; repeat match type of Hi with context [Nat.eqb ?k i] => destruct (Nat.eqb_spec k i) as [<-|] end; try congruence.
        destruct (nth_snoc _ _ _ _ Hi) as [Hi'|[-> ->]]; [congruence|destruct logs; discriminate]. }
    destruct Hcase as [(e0 & H0 & H1)|Hg]; [specialize (Hr _ _ H0 H1); destruct logs; auto|destruct logs; auto].
  - intros id c Hid. 
    destruct (worker_act a) eqn:Ea.
    + destruct a; try discriminate; cbn in H.
      * unfold worker_step in H. destruct (b_worker s) as [| |j|j buf t tot r|j buf t tot r|j cn t tot r|j r|] eqn:Ew; cbn [exited job_of] in *.
        -- destruct (b_msgs s) as [|m ms] eqn:Em; [discriminate|]. injection H as <-. simp. simp_in Hid. eapply ctl_ok_mono; [| | | |exact (Hc id c Hid)]; auto; try (intros; discriminate).
           intros m' [->|Hm]; [|auto]. destruct m'; right; reflexivity.
        -- injection H as <-. eapply ctl_ok_mono; [| | | |exact (Hc id c Hid)]; simp; auto; try (intros; discriminate).
        -- destruct logs; injection H as <-; simp; (eapply ctl_ok_mono; [| | | |exact (Hc id c Hid)]; auto; try (intros; discriminate)); auto; destruct (0 <? b_cbs s)%Z; auto.
        -- destruct (b_queue s); injection H as <-; simp; (eapply ctl_ok_mono; [| | | |exact (Hc id c Hid)]; auto; try (intros; discriminate)); auto. destruct (_ =? M); auto.
        -- destruct buf; injection H as <-; simp; (eapply ctl_ok_mono; [| | | |exact (Hc id c Hid)]; auto; try (intros; discriminate)).
        -- injection H as <-; simp; (eapply ctl_ok_mono; [| | | |exact (Hc id c Hid)]; auto; try (intros; discriminate)). destruct (logs && (Z.of_nat (tot + cn) <? t)%Z); auto.
        -- injection H as <-. clear Hdn Hex.
           assert (Hgoal : ctl_ok (b_down s) (exited (after_job j)) (b_msgs s) JNone id c).
           { assert (Hid' : nth_error (b_ctls (reply j r s)) id = Some c) by (destruct j; [exact Hid|exact Hid|destruct logs; exact Hid]).
             destruct (reply_ctl _ _ _ _ _ Hid') as [(c0 & H0 & -> & Hp & Hj)|(H0 & Hj)].
             - destruct (Hc id c0 H0) as (_ & B & _). split; [discriminate|split; [|discriminate]]. cbn [c_shut c_pc]. intros L Hs _. apply (B L Hs). congruence.
             - destruct (Hc id c H0) as (A & B & C). split; [intros X Y; specialize (A X Y); discriminate|split; [exact B|]].
               intros Hp. destruct (Hj Hp) as [J1 J2]. destruct (C Hp) as [Hm|[Hm|Hm]]; [auto| |discriminate]. destruct (c_shut c); congruence. }
           assert (Hw : b_down (reply j r s) = b_down s /\ b_msgs (reply j r s) = b_msgs s).
           { destruct j as [|k|k]; cbn [reply]; auto; destruct (nth_error (b_ctls s) k) as [x|]; auto; destruct (c_pc x); auto. }
           destruct Hw as [W1 W2]. destruct j; [| |destruct logs]; simp; rewrite W1, W2; exact Hgoal.
        -- discriminate.
      * destruct (b_worker s) eqn:Ew; try discriminate. destruct (b_msgs s) eqn:Em; [|discriminate]. injection H as <-. simp. simp_in Hid.
        eapply ctl_ok_mono; [| | | |exact (Hc id c Hid)]; auto. rewrite Em. auto.
    + destruct (frame s a s' H Ea) as (Hw & _ & _ & _ & (m & Hm & _) & _). rewrite Hw.
      assert (Hmono : forall c0, ctl_ok (b_down s) (exited (b_worker s)) (b_msgs s) (job_of (b_worker s)) id c0 ->
         ctl_ok (b_down s') (exited (b_worker s)) (b_msgs s') (job_of (b_worker s)) id c0).
      { intros c0. apply ctl_ok_mono; auto. rewrite Hm. intros m' Hm'. left. apply in_or_app. auto. }
      clear Hdn Hex Hw Hm. destruct (nth_error (b_ctls s) id) as [c0|] eqn:E0.
      * pose proof (Hc id c0 E0) as Hok. revert Hid Hmono. inv_step H; try discriminate; simp; intros Hid Hmono;
        repeat match goal with E : nth_error (b_ctls s) ?k = Some _, X : context [nth_error (b_ctls s) ?k] |- _ => lazymatch X with E => fail | _ => rewrite E in X end end;
        rewrite ?nth_set_nth in Hid; repeat match type of Hid with context [Nat.eqb ?k id] => destruct (Nat.eqb_spec k id) as [<-|] end;
        try (try rewrite E0 in Hid; injection Hid as <-; exact (Hmono c0 Hok));
        try (rewrite (nth_snoc_old _ _ _ _ E0) in Hid; injection Hid as <-; exact (Hmono c0 Hok));
        try rewrite E0 in Hid; injection Hid as <-; clear Hmono Hk Hr Hx; cbn [c_shut c_pc] in *; destruct Hok as (A & B & C);
        (split; [|split]); cbn [c_shut c_pc]; intros; try discriminate; auto;
        try (injection E0 as <-);
        try (apply B; congruence); try congruence;
        try (left; apply in_or_app; right; left; repeat match goal with E : c_shut _ = _ |- _ => rewrite E end; reflexivity);
        try (destruct (exited (b_worker s)); auto; repeat match goal with E : c_shut _ = _, F : context [c_shut _] |- _ => lazymatch F with E => fail | _ => rewrite E in F end end; discriminate).
      * assert (Hn : exists sh, c = new_ctl logs sh s).
        { clear Hmono Hc Hr Hk Hx. revert Hid. inv_step H; try discriminate; simp; intros Hid; try congruence;
          repeat match goal with E : nth_error (b_ctls s) ?k = Some _, X : context [nth_error (b_ctls s) ?k] |- _ => lazymatch X with E => fail | _ => rewrite E in X end end;
          rewrite ?nth_set_nth in Hid; repeat match type of Hid with context [Nat.eqb ?k id] => destruct (Nat.eqb_spec k id) as [<-|] end; try congruence;
          (destruct (nth_snoc _ _ _ _ Hid) as [Hi'|[-> ->]]; [congruence|eauto]). }
        destruct Hn as (sh & ->). unfold new_ctl. split; [|split]; cbn [c_shut c_pc]; intros; destruct logs; congruence.
  - clear Hdn Hk Hr Hc. destruct (exited (b_worker s)) eqn:Ex.
    + rewrite (Hex eq_refl). clear Hex. revert Hx. inv_step H; simp; eqs s; cbn [exited] in *; try discriminate; auto.
    + rewrite andb_false_r in Hx. clear Hex. revert Hx. inv_step H; simp; eqs s; cbn [exited after_job] in *; try discriminate; 
      repeat match goal with E : exited (b_worker s) = false |- _ => rewrite E; clear E end; rewrite ?andb_true_r, ?andb_false_r; auto; 
      repeat match goal with |- context [exited (if ?b then _ else _)] => destruct b; cbn [exited] end; rewrite ?andb_false_r; auto.
Qed.

(** * The export trigger *)
Definition holds_flag (e : ecall) : Prop := match e_pc e with EMsg _ | EReset _ => True | _ => False end.
Definition invF (s : bstate) : Prop :=
  b_sent s = true -> In MExport (b_msgs s) \/ b_worker s = WFlag \/ exists i e, nth_error (b_emits s) i = Some e /\ holds_flag e.
Lemma invF_step s a s' : invF s -> bstep s a = Some s' -> invF s'.
Proof.
  unfold invF. intros F H.
  assert (Hcase : b_sent s' = false \/
    (b_sent s = true /\ (In MExport (b_msgs s) -> In MExport (b_msgs s') \/ b_worker s' = WFlag) /\
     (b_worker s = WFlag -> b_worker s' = WFlag) /\
     (forall i e, nth_error (b_emits s) i = Some e -> holds_flag e -> (exists e', nth_error (b_emits s') i = Some e' /\ holds_flag e') \/ In MExport (b_msgs s'))) \/
    (exists i e, nth_error (b_emits s') i = Some e /\ holds_flag e)).
  { destruct (b_sent s') eqn:Es; [right|left; reflexivity]. clear F. revert Es.
    inv_step H; simp; intros Es; try discriminate; try congruence; eqs s;
    try (left; split; [first [assumption|reflexivity]|split; [intros X; first [left; exact X|left; apply in_or_app; left; exact X|
           destruct X as [X|X]; [first [discriminate X|subst; right; reflexivity]|left; exact X]]|split; [first [intros X; exact X|intros; congruence]|]]];
         intros i9 x9 Hj Hx; repeat match goal with E : nth_error (b_emits s) ?k = Some _ |- context [nth_error (b_emits s) ?k] => rewrite E end;
         rewrite ?nth_set_nth, ?(nth_snoc_old _ _ _ _ Hj);
         repeat match goal with |- context [Nat.eqb ?k i9] => destruct (Nat.eqb_spec k i9) as [<-|] end;
         try (left; exists x9; split; [first [assumption|reflexivity]|assumption]);
         match goal with P : e_pc ?e = _, E : nth_error (b_emits s) _ = Some ?e |- _ =>
           rewrite E in Hj; injection Hj as <-; unfold holds_flag in Hx; rewrite P in Hx; try contradiction; rewrite ?E;
           first [left; eexists; split; [reflexivity|exact I] | right; apply in_or_app; right; left; reflexivity] end).
    2: left; split; [assumption|split; [intros []|split; [discriminate|eauto]]].
    right. match goal with E : nth_error (b_emits s) ?i = Some ?e |- _ => exists i; eexists; rewrite E, nth_set_nth, Nat.eqb_refl, E; split; [reflexivity|exact I] end. }
  intros Es. destruct Hcase as [?|[(Hs & A & B & C)|?]]; [congruence| |auto].
  destruct (F Hs) as [X|[X|(i & e & Hi & He)]]; [destruct (A X); auto|auto|]. destruct (C i e Hi He) as [(e' & ? & ?)|?]; eauto 6.
Qed.

(** * What a run leaves in place *)
Lemma step_mono s a s' : bstep s a = Some s' ->
  (exists x, b_accepted s' = b_accepted s ++ x) /\ (exists x, b_exported s' = b_exported s ++ x) /\
  (forall id c, nth_error (b_ctls s) id = Some c -> exists c', nth_error (b_ctls s') id = Some c' /\ ghost c' = ghost c /\ c_shut c' = c_shut c) /\
  (forall i e, nth_error (b_emits s) i = Some e -> exists e', nth_error (b_emits s') i = Some e' /\ e_late e' = e_late e /\ (forall o, e_pc e = EDone o -> e' = e)).
Proof.
  intros H. split; [|split; [|split]].
  - inv_step H; simp; eauto; exists []; rewrite app_nil_r; reflexivity.
  - inv_step H; simp; eauto; exists []; rewrite app_nil_r; reflexivity.
  - intros id c Hc. inv_step H; simp; eauto; 
    repeat match goal with E : nth_error (b_ctls s) ?k = Some _ |- context [nth_error (b_ctls s) ?k] => rewrite E end;
    rewrite ?nth_set_nth, ?(nth_snoc_old _ _ _ _ Hc); eauto;
    repeat match goal with |- context [Nat.eqb ?k id] => destruct (Nat.eqb_spec k id) as [<-|] end; eauto;
    (rewrite Hc; eexists; split; [reflexivity|]; match goal with E : nth_error (b_ctls s) _ = Some ?e |- context [ghost _ = _] => idtac end;
     repeat match goal with E : nth_error (b_ctls s) ?k = Some ?e1, F : nth_error (b_ctls s) ?k = Some ?e2 |- _ =>
        lazymatch E with F => fail | _ => rewrite E in F; injection F as <- end end; split; reflexivity).
  - intros i e Hi. inv_step H; simp; eauto 6; 
    repeat match goal with E : nth_error (b_emits s) ?k = Some _ |- context [nth_error (b_emits s) ?k] => rewrite E end;
    rewrite ?nth_set_nth, ?(nth_snoc_old _ _ _ _ Hi); eauto 6;
    repeat match goal with |- context [Nat.eqb ?k i] => destruct (Nat.eqb_spec k i) as [<-|] end; eauto 6;
    (rewrite Hi; eexists; split; [reflexivity|];
     repeat match goal with E : nth_error (b_emits s) ?k = Some ?e1, F : nth_error (b_emits s) ?k = Some ?e2 |- _ =>
        lazymatch E with F => fail | _ => rewrite E in F; injection F as <- end end; split; [reflexivity|intros; congruence]).
Qed.
Lemma run_mono : forall acts s s', brun s acts = Some s' ->
  (exists x, b_accepted s' = b_accepted s ++ x) /\ (exists x, b_exported s' = b_exported s ++ x) /\
  (forall id c, nth_error (b_ctls s) id = Some c -> exists c', nth_error (b_ctls s') id = Some c' /\ ghost c' = ghost c /\ c_shut c' = c_shut c) /\
  (forall i e, nth_error (b_emits s) i = Some e -> exists e', nth_error (b_emits s') i = Some e' /\ e_late e' = e_late e /\ (forall o, e_pc e = EDone o -> e' = e)).
Proof.
  induction acts as [|a acts IH]; intros s s' H; cbn in H.
  - injection H as <-. split; [|split; [|split]]; [exists []; rewrite app_nil_r; reflexivity|exists []; rewrite app_nil_r; reflexivity|eauto|eauto 6].
  - destruct (bstep s a) as [s1|] eqn:E; [|discriminate]. destruct (step_mono _ _ _ E) as ((x & A1) & (y & A2) & A3 & A4).
    destruct (IH _ _ H) as ((x' & B1) & (y' & B2) & B3 & B4). split; [|split; [|split]].
    + exists (x ++ x'). rewrite B1, A1, app_assoc. reflexivity.
    + exists (y ++ y'). rewrite B2, A2, app_assoc. reflexivity.
    + intros id c Hc. destruct (A3 _ _ Hc) as (c1 & H1 & G1 & S1). destruct (B3 _ _ H1) as (c2 & H2 & G2 & S2). exists c2. rewrite G2, S2. auto.
    + intros i e Hi. destruct (A4 _ _ Hi) as (c1 & H1 & L1 & G1). destruct (B4 _ _ H1) as (c2 & H2 & L2 & G2). exists c2. rewrite L2. split; [exact H2|split; [exact L1|]].
      intros o Ho. pose proof (G1 o Ho). subst c1. eauto.
Qed.
Lemma run_app acts acts' s : brun s (acts ++ acts') = match brun s acts with Some s1 => brun s1 acts' | None => None end.
Proof. revert s. induction acts as [|a acts IH]; intros s; cbn; [reflexivity|]. destruct (bstep s a); auto. Qed.
Lemma run_exited : forall acts s s', brun s acts = Some s' -> exited (b_worker s) = true ->
  b_worker s' = WExited /\ b_exported s' = b_exported s /\ b_queue s' = b_queue s.
Proof.
  induction acts as [|a acts IH]; intros s s' H Hx; cbn in H.
  - injection H as <-. destruct (b_worker s); try discriminate. auto.
  - destruct (bstep s a) as [s1|] eqn:E; [|discriminate]. destruct (exited_step _ _ _ E Hx) as (E1 & E2 & E3).
    rewrite <- E2, <- E3. apply (IH _ _ H). rewrite E1. reflexivity.
Qed.

Record binv (s : bstate) : Prop := mk_I { i_A : invA s; i_B : invB s; i_C : logs = true -> invC s; i_D : invD s; i_E : invE s; i_F : invF s }.
Lemma binv_init : binv b_init.
Proof. split; [apply invA_init|apply invB_init|intros; apply invC_init|apply invD_init|apply invE_init|discriminate]. Qed.
Lemma binv_step s a s' : (Z.of_nat Q < W)%Z -> binv s -> bstep s a = Some s' -> binv s'.
Proof.
  intros HQ [A B C D E F] H. split;
  [eapply invA_step; eassumption|eapply invB_step; eassumption|intros L; eapply invC_step; eauto|eapply invD_step; eassumption|eapply invE_step; eassumption|eapply invF_step; eassumption].
Qed.
Lemma binv_run : (Z.of_nat Q < W)%Z -> forall acts s s', binv s -> brun s acts = Some s' -> binv s'.
Proof.
  intros HQ. induction acts as [|a acts IH]; intros s s' Hi H; cbn in H; [injection H as <-; exact Hi|].
  destruct (bstep s a) as [s1|] eqn:E; [|discriminate]. eapply IH; [eapply binv_step; eassumption|exact H].
Qed.
Lemma binv_reach : (Z.of_nat Q < W)%Z -> forall acts s, brun b_init acts = Some s -> binv s.
Proof. intros HQ acts s. apply binv_run; [exact HQ|apply binv_init]. Qed.
End proofs.
