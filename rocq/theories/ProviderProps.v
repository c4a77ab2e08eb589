(** Theorems for C30 (and the provider half of C39). *)
From Coq Require Import List Arith Bool Lia.
From Verif Require Import ProviderModel.
Import ListNotations.

(** What happened: the processors shut down, in order; the processors that got
    item [i], in order. *)
Definition shut_log (l : list entry) : list nat := flat_map (fun e => match e with EShutdown p => [p] | _ => [] end) l.
Definition sent_log (i : nat) (l : list entry) : list nat :=
  flat_map (fun e => match e with ESend j p => if Nat.eqb i j then [p] else [] | _ => [] end) l.

Lemma nth_set_nth {A} : forall (l : list A) i j x, nth_error (set_nth i x l) j =
  if Nat.eqb i j then match nth_error l j with Some _ => Some x | None => None end else nth_error l j.
Proof.
  induction l as [|y l IH]; intros i j x; cbn [set_nth].
  - destruct j; cbn; destruct (Nat.eqb i _); reflexivity.
  - destruct i, j; cbn; try reflexivity. apply IH.
Qed.
Lemma set_nth_length {A} : forall (l : list A) i x, length (set_nth i x l) = length l.
Proof. induction l as [|y l IH]; intros [|i] x; cbn; auto. Qed.

Section inv.
Variables (n : nat) (ok : nat -> bool) (checks : bool).
Notation answer := (answer n ok). Notation pstep := (pstep n ok checks). Notation prun := (prun n ok checks).

(** A call that shuts processors down, and how far it is. *)
Definition shutter (c : call) : option nat :=
  match c with
  | Shutting k | Dropping k => Some k
  | Finished ROk | Finished RFailed | Finished RDropped => Some n
  | _ => None
  end.
Definition sender (c : call) : option nat :=
  match c with Sending k => Some k | Finished RDelivered => Some n | _ => None end.
Definition shut_call (c : call) : bool := match c with Shutting _ | Finished ROk | Finished RFailed | Finished RAlready => true | _ => false end.

Record inv (s : pstate) : Prop := mk_inv {
  i_shut : (forall i c, nth_error (p_calls s) i = Some c -> shutter c = None) /\ shut_log (p_log s) = [] /\ p_flag s = false /\ p_handles s <> 0
           \/ exists i k, (exists c, nth_error (p_calls s) i = Some c /\ shutter c = Some k) /\
                (forall j c, nth_error (p_calls s) j = Some c -> j <> i -> shutter c = None) /\
                shut_log (p_log s) = seq 0 k /\ k <= n /\ (p_flag s = true \/ p_handles s = 0);
  i_flag : forall i c, nth_error (p_calls s) i = Some c -> shut_call c = true -> p_flag s = true;
  i_drop : forall i c, nth_error (p_calls s) i = Some c -> (exists k, c = Dropping k) \/ c = Finished RDropped -> p_flag s = false /\ p_handles s = 0;
  i_send : forall i, match nth_error (p_calls s) i with
                     | Some c => match sender c with
                                 | Some k => k <= n /\ sent_log i (p_log s) = seq 0 k
                                 | None => sent_log i (p_log s) = []
                                 end
                     | None => sent_log i (p_log s) = []
                     end;
  i_last : p_handles s = 0 -> forall i c, nth_error (p_calls s) i = Some c -> is_finished c = true \/ exists k, c = Dropping k }.

Lemma shut_app l m : shut_log (l ++ m) = shut_log l ++ shut_log m.
Proof. apply flat_map_app. Qed.
Lemma sent_app i l m : sent_log i (l ++ m) = sent_log i l ++ sent_log i m.
Proof. apply flat_map_app. Qed.

Lemma nth_snoc {A} (l : list A) x i c : nth_error (l ++ [x]) i = Some c ->
  nth_error l i = Some c \/ (i = length l /\ c = x).
Proof.
  intros H. destruct (lt_dec i (length l)) as [Hl|Hl].
  - rewrite nth_error_app1 in H by exact Hl. auto.
  - rewrite nth_error_app2 in H by lia. right.
    destruct (i - length l) as [|m] eqn:E; cbn in H; [injection H as <-; split; [lia|reflexivity]|]. destruct m; discriminate.
Qed.
Lemma nth_snoc_old {A} (l : list A) x i c : nth_error l i = Some c -> nth_error (l ++ [x]) i = Some c.
Proof. intros H. rewrite nth_error_app1; [exact H|]. apply nth_error_Some. congruence. Qed.
Lemma nth_snoc_new {A} (l : list A) x : nth_error (l ++ [x]) (length l) = Some x.
Proof. rewrite nth_error_app2, Nat.sub_diag by lia. reflexivity. Qed.

Lemma inv_init : inv p_init.
Proof.
  split; cbn.
  - left. split; [intros [|i] c H; discriminate|]. auto.
  - intros [|i] c H; discriminate.
  - intros [|i] c H; discriminate.
  - intros [|i]; reflexivity.
  - discriminate.
Qed.

Lemma seq_snoc k : seq 0 k ++ [k] = seq 0 (S k).
Proof. rewrite seq_S. reflexivity. Qed.

(** Adding a call that neither shuts down nor sends anything yet. *)
Lemma send_snoc (calls : list call) log c : (forall i, match nth_error calls i with
                     | Some c => match sender c with
                                 | Some k => k <= n /\ sent_log i log = seq 0 k
                                 | None => sent_log i log = []
                                 end
                     | None => sent_log i log = []
                     end) -> sender c = None \/ sender c = Some 0 ->
  forall i, match nth_error (calls ++ [c]) i with
                     | Some c => match sender c with
                                 | Some k => k <= n /\ sent_log i log = seq 0 k
                                 | None => sent_log i log = []
                                 end
                     | None => sent_log i log = []
                     end.
Proof.
  intros H Hc i. specialize (H i). destruct (nth_error (calls ++ [c]) i) as [c'|] eqn:E.
  - destruct (nth_snoc _ _ _ _ E) as [E'|[-> ->]]; [rewrite E' in H; exact H|].
    rewrite (proj2 (nth_error_None calls (length calls))) in H by lia.
    destruct Hc as [-> | ->]; [exact H|]. split; [lia|exact H].
  - destruct (nth_error calls i) eqn:E'; [rewrite (nth_snoc_old _ c _ _ E') in E; discriminate|exact H].
Qed.

Lemma inv_step s a s' : inv s -> pstep s a = Some s' -> inv s'.
Proof.
  intros [Hs Hf Hd He Hl] H. destruct a as [| |i| |]; cbn [ProviderModel.pstep] in H.
  - (* CallShutdown *)
    destruct (Nat.eqb_spec (p_handles s) 0) as [Hh|Hh]; [discriminate|].
    destruct (p_flag s) eqn:Ef; injection H as <-; split; cbn [p_flag p_handles p_calls p_log].
    + destruct Hs as [(_ & _ & X & _)|(i & k & (c & H1 & H2) & H3 & H4 & H5 & H6)]; [congruence|]. right. exists i, k.
      split; [exists c; split; [apply nth_snoc_old, H1|exact H2]|]. split; [|auto].
      intros j c' Hj Hne. destruct (nth_snoc _ _ _ _ Hj) as [Hj'|[-> ->]]; [eauto|reflexivity].
    + intros i c Hi Hc. reflexivity.
    + intros i c Hi Hc. destruct (nth_snoc _ _ _ _ Hi) as [Hi'|[-> ->]]; [destruct (Hd _ _ Hi' Hc); congruence|].
      destruct Hc as [[k Hc]|Hc]; discriminate.
    + apply send_snoc; [exact He|left; reflexivity].
    + intros Hh'. congruence.
    + destruct Hs as [(H1 & H2 & H3 & H4)|(i & k & _ & _ & _ & _ & [X|X])]; [|congruence|congruence]. right. exists (length (p_calls s)), 0.
      split; [exists (Shutting 0); split; [apply nth_snoc_new|reflexivity]|]. split; [|split; [exact H2|split; [lia|auto]]].
      intros j c' Hj Hne. destruct (nth_snoc _ _ _ _ Hj) as [Hj'|[-> ->]]; [eauto|congruence].
    + intros i c Hi Hc. reflexivity.
    + intros i c Hi Hc. destruct (nth_snoc _ _ _ _ Hi) as [Hi'|[-> ->]]; [destruct (Hd _ _ Hi' Hc); congruence|].
      destruct Hc as [[k Hc]|Hc]; discriminate.
    + apply send_snoc; [exact He|left; reflexivity].
    + intros Hh'. congruence.
  - (* CallSend *)
    destruct (Nat.eqb_spec (p_handles s) 0) as [Hh|Hh]; [discriminate|].
    assert (exists c, (c = Finished RSkipped \/ c = Sending 0) /\ s' = mk_p (p_flag s) (p_handles s) (p_calls s ++ [c]) (p_log s)) as (c0 & Hc0 & ->).
    { destruct (checks && p_flag s); injection H as <-; eauto. }
    clear H. assert (Hsh : shutter c0 = None) by (destruct Hc0; subst; reflexivity).
    split; cbn [p_flag p_handles p_calls p_log].
    + destruct Hs as [(H1 & H2 & H3 & H4)|(i & k & (c & H1 & H2) & H3 & H4 & H5 & H6)].
      * left. split; [|auto]. intros i c Hi. destruct (nth_snoc _ _ _ _ Hi) as [Hi'|[-> ->]]; [eauto|exact Hsh].
      * right. exists i, k. split; [exists c; split; [apply nth_snoc_old, H1|exact H2]|]. split; [|auto].
        intros j c' Hj Hne. destruct (nth_snoc _ _ _ _ Hj) as [Hj'|[-> ->]]; [eauto|exact Hsh].
    + intros i c Hi Hc. destruct (nth_snoc _ _ _ _ Hi) as [Hi'|[-> ->]]; [eauto|]. destruct Hc0; subst; discriminate.
    + intros i c Hi Hc. destruct (nth_snoc _ _ _ _ Hi) as [Hi'|[-> ->]]; [eauto|].
      destruct Hc0; subst; destruct Hc as [[k Hc]|Hc]; discriminate.
    + apply send_snoc; [exact He|]. destruct Hc0; subst; auto.
    + intros Hh'. congruence.
  - (* Advance *)
    destruct (nth_error (p_calls s) i) as [c|] eqn:Ei; [|discriminate].
    assert (Hnew : forall c', nth_error (set_nth i c' (p_calls s)) i = Some c') by (intros; rewrite nth_set_nth, Nat.eqb_refl, Ei; reflexivity).
    assert (Hold : forall c' j, j <> i -> nth_error (set_nth i c' (p_calls s)) j = nth_error (p_calls s) j).
    { intros c' j Hj. rewrite nth_set_nth. destruct (Nat.eqb_spec i j); [congruence|reflexivity]. }
    assert (Hcase : forall c' j x, nth_error (set_nth i c' (p_calls s)) j = Some x ->
        (j = i /\ x = c') \/ (j <> i /\ nth_error (p_calls s) j = Some x)).
    { intros c' j x Hj. destruct (Nat.eq_dec j i) as [->|Hne]; [rewrite Hnew in Hj; left; split; congruence|rewrite (Hold _ _ Hne) in Hj; auto]. }
    destruct c as [k|k|k|r]; [| | |discriminate].
    + (* Shutting *)
      destruct Hs as [(H1 & _)|(i' & k' & (c & H1 & H2) & H3 & H4 & H5 & H6)]; [specialize (H1 _ _ Ei); discriminate|].
      assert (i' = i).
      { destruct (Nat.eq_dec i' i) as [|Hne]; [assumption|]. assert (X : shutter (Shutting k) = None) by (eapply H3; [exact Ei|congruence]). discriminate. }
      subst i'. rewrite Ei in H1. injection H1 as <-. cbn in H2. injection H2 as <-.
      pose proof (Hf _ _ Ei eq_refl) as Hflag.
      assert (Hhn : p_handles s <> 0).
      { intros X. destruct (Hl X _ _ Ei) as [Y|[z Y]]; discriminate. }
      destruct (Nat.ltb_spec k n) as [Hk|Hk]; injection H as <-; split; cbn [p_flag p_handles p_calls p_log].
      * right. exists i, (S k). split; [exists (Shutting (S k)); split; [apply Hnew|reflexivity]|]. split.
        { intros j x Hj Hne. rewrite (Hold _ _ Hne) in Hj. eauto. }
        rewrite shut_app, H4. split; [apply seq_snoc|]. split; [lia|auto].
      * intros _ _ _ _. exact Hflag.
      * intros j x Hj Hx. destruct (Hcase _ _ _ Hj) as [[-> ->]|[_ Hj']]; [|eauto]. destruct Hx as [[z Hx]|Hx]; discriminate.
      * intros j. rewrite sent_app. cbn. rewrite app_nil_r. specialize (He j). rewrite nth_set_nth.
        destruct (Nat.eqb_spec i j); [subst; rewrite Ei in He |- *; exact He|exact He].
      * intros X. congruence.
      * right. exists i, n. split; [exists (Finished answer); split; [apply Hnew|]|].
        { unfold ProviderModel.answer. destruct (forallb _ _); reflexivity. }
        split; [intros j x Hj Hne; rewrite (Hold _ _ Hne) in Hj; eauto|].
        assert (k = n) by lia. subst k. auto.
      * intros _ _ _ _. exact Hflag.
      * intros j x Hj Hx. destruct (Hcase _ _ _ Hj) as [[-> ->]|[_ Hj']]; [|eauto]. unfold ProviderModel.answer in Hx.
        destruct Hx as [[z Hx]|Hx]; destruct (forallb _ _); discriminate.
      * intros j. specialize (He j). rewrite nth_set_nth. destruct (Nat.eqb_spec i j); [|exact He]. subst; rewrite Ei in He |- *.
        unfold ProviderModel.answer. destruct (forallb _ _); exact He.
      * intros X. congruence.
    + (* Dropping *)
      destruct Hs as [(H1 & _)|(i' & k' & (c & H1 & H2) & H3 & H4 & H5 & H6)]; [specialize (H1 _ _ Ei); discriminate|].
      assert (i' = i).
      { destruct (Nat.eq_dec i' i) as [|Hne]; [assumption|]. assert (X : shutter (Dropping k) = None) by (eapply H3; [exact Ei|congruence]). discriminate. }
      subst i'. rewrite Ei in H1. injection H1 as <-. cbn in H2. injection H2 as <-.
      destruct (Hd _ _ Ei (or_introl (ex_intro _ k eq_refl))) as [Hflag Hhz].
      destruct (Nat.ltb_spec k n) as [Hk|Hk]; injection H as <-; split; cbn [p_flag p_handles p_calls p_log].
      * right. exists i, (S k). split; [exists (Dropping (S k)); split; [apply Hnew|reflexivity]|]. split.
        { intros j x Hj Hne. rewrite (Hold _ _ Hne) in Hj. eauto. }
        rewrite shut_app, H4. split; [apply seq_snoc|]. split; [lia|auto].
      * intros j x Hj Hx. destruct (Hcase _ _ _ Hj) as [[-> ->]|[_ Hj']]; [discriminate|eauto].
      * auto.
      * intros j. rewrite sent_app. cbn. rewrite app_nil_r. specialize (He j). rewrite nth_set_nth.
        destruct (Nat.eqb_spec i j); [subst; rewrite Ei in He |- *; exact He|exact He].
      * intros X j x Hj. destruct (Hcase _ _ _ Hj) as [[-> ->]|[_ Hj']]; eauto.
      * right. exists i, n. split; [exists (Finished RDropped); split; [apply Hnew|reflexivity]|].
        split; [intros j x Hj Hne; rewrite (Hold _ _ Hne) in Hj; eauto|].
        assert (k = n) by lia. subst k. auto.
      * intros j x Hj Hx. destruct (Hcase _ _ _ Hj) as [[-> ->]|[_ Hj']]; [discriminate|eauto].
      * auto.
      * intros j. specialize (He j). rewrite nth_set_nth. destruct (Nat.eqb_spec i j); [|exact He]. subst; rewrite Ei in He |- *. exact He.
      * intros X j x Hj. destruct (Hcase _ _ _ Hj) as [[-> ->]|[_ Hj']]; eauto.
    + (* Sending *)
      assert (Hhn : p_handles s <> 0).
      { intros X. destruct (Hl X _ _ Ei) as [Y|[z Y]]; discriminate. }
      assert (Hgen : forall c' log', shutter c' = None -> shut_log log' = shut_log (p_log s) ->
         (forall i0 c0, nth_error (set_nth i c' (p_calls s)) i0 = Some c0 -> shutter c0 = None) /\ shut_log log' = [] /\ p_flag s = false /\ p_handles s <> 0
         \/ exists i0 k0, (exists c0, nth_error (set_nth i c' (p_calls s)) i0 = Some c0 /\ shutter c0 = Some k0) /\
              (forall j c0, nth_error (set_nth i c' (p_calls s)) j = Some c0 -> j <> i0 -> shutter c0 = None) /\
              shut_log log' = seq 0 k0 /\ k0 <= n /\ (p_flag s = true \/ p_handles s = 0)).
      { intros c' log' Hc' ->. destruct Hs as [(H1 & H2 & H3)|(i0 & k0 & (c0 & H1 & H2) & H3 & H4 & H5 & H6)].
        - left. split; [|auto]. intros j x Hj. destruct (Hcase _ _ _ Hj) as [[-> ->]|[_ Hj']]; eauto.
        - right. exists i0, k0. assert (i0 <> i) by (intros ->; rewrite Ei in H1; injection H1 as <-; discriminate).
          split; [exists c0; rewrite Hold by assumption; auto|]. split; [|auto].
          intros j x Hj Hne. destruct (Hcase _ _ _ Hj) as [[-> ->]|[_ Hj']]; eauto. }
      destruct (Nat.ltb_spec k n) as [Hk|Hk]; injection H as <-; split; cbn [p_flag p_handles p_calls p_log].
      * apply Hgen; [reflexivity|]. rewrite shut_app. apply app_nil_r.
      * intros j x Hj Hx. destruct (Hcase _ _ _ Hj) as [[-> ->]|[_ Hj']]; [discriminate|eauto].
      * intros j x Hj Hx. destruct (Hcase _ _ _ Hj) as [[-> ->]|[_ Hj']]; [|eauto]. destruct Hx as [[z Hx]|Hx]; discriminate.
      * intros j. rewrite sent_app. specialize (He j). rewrite nth_set_nth. cbn [sent_log flat_map].
        destruct (Nat.eqb_spec i j) as [->|Hne].
        { rewrite Ei in He |- *. cbn [sender] in *. rewrite Nat.eqb_refl. destruct He as [_ ->]. split; [lia|]. cbn. apply seq_snoc. }
        destruct (Nat.eqb_spec j i); [congruence|]. cbn. rewrite app_nil_r. exact He.
      * intros X. congruence.
      * apply Hgen; reflexivity.
      * intros j x Hj Hx. destruct (Hcase _ _ _ Hj) as [[-> ->]|[_ Hj']]; [discriminate|eauto].
      * intros j x Hj Hx. destruct (Hcase _ _ _ Hj) as [[-> ->]|[_ Hj']]; [|eauto]. destruct Hx as [[z Hx]|Hx]; discriminate.
      * intros j. specialize (He j). rewrite nth_set_nth. destruct (Nat.eqb_spec i j) as [->|Hne]; [|exact He].
        rewrite Ei in He |- *. cbn [sender] in *. replace n with k by lia. destruct He; split; [lia|assumption].
      * intros X. congruence.
  - (* CloneHandle *)
    destruct (Nat.eqb_spec (p_handles s) 0) as [Hh|Hh]; [discriminate|]. injection H as <-. split; cbn [p_flag p_handles p_calls p_log].
    + destruct Hs as [(H1 & H2 & H3 & H4)|(i & k & H1 & H2 & H3 & H4 & [H5|H5])]; [left; auto|right; exists i, k; auto 8|congruence].
    + exact Hf.
    + intros i c Hi Hc. destruct (Hd _ _ Hi Hc). congruence.
    + exact He.
    + discriminate.
  - (* DropHandle *)
    destruct (p_handles s) as [|[|h]] eqn:Eh; [discriminate| |].
    + destruct (forallb is_finished (p_calls s)) eqn:Ea; [|discriminate]. rewrite forallb_forall in Ea.
      destruct (p_flag s) eqn:Ef; injection H as <-; split; cbn [p_flag p_handles p_calls p_log].
      * destruct Hs as [(_ & _ & X & _)|(i & k & H1 & H2 & H3 & H4 & _)]; [congruence|]. right. exists i, k. auto 8.
      * reflexivity.
      * intros i c Hi Hc. destruct (Hd _ _ Hi Hc). congruence.
      * exact He.
      * intros _ i c Hi. left. apply Ea. eapply nth_error_In, Hi.
      * destruct Hs as [(H1 & H2 & H3 & H4)|(i & k & _ & _ & _ & _ & [X|X])]; [|congruence|congruence]. right. exists (length (p_calls s)), 0.
        split; [exists (Dropping 0); split; [apply nth_snoc_new|reflexivity]|]. split; [|split; [exact H2|split; [lia|auto]]].
        intros j c' Hj Hne. destruct (nth_snoc _ _ _ _ Hj) as [Hj'|[-> ->]]; [eauto|congruence].
      * intros i c Hi Hc. destruct (nth_snoc _ _ _ _ Hi) as [Hi'|[-> ->]]; [eauto|discriminate].
      * auto.
      * apply send_snoc; [exact He|left; reflexivity].
      * intros _ i c Hi. destruct (nth_snoc _ _ _ _ Hi) as [Hi'|[-> ->]]; [left; apply Ea; eapply nth_error_In, Hi'|eauto].
    + injection H as <-. split; cbn [p_flag p_handles p_calls p_log].
      * destruct Hs as [(H1 & H2 & H3 & H4)|(i & k & H1 & H2 & H3 & H4 & [H5|H5])]; [left; auto|right; exists i, k; auto 8|discriminate].
      * exact Hf.
      * intros i c Hi Hc. destruct (Hd _ _ Hi Hc). discriminate.
      * exact He.
      * discriminate.
Qed.

Lemma inv_run : forall acts s s', inv s -> prun s acts = Some s' -> inv s'.
Proof.
  induction acts as [|a acts IH]; intros s s' Hi H; cbn in H; [injection H as <-; exact Hi|].
  destruct (pstep s a) as [s1|] eqn:E; [|discriminate]. eapply IH; [|exact H]. eapply inv_step; eassumption.
Qed.

(** A finished call stays as it is; the flag stays set. *)
Lemma stays_step s a s' : pstep s a = Some s' ->
  (p_flag s = true -> p_flag s' = true) /\
  (forall i r, nth_error (p_calls s) i = Some (Finished r) -> nth_error (p_calls s') i = Some (Finished r)).
Proof.
  intros H. destruct a as [| |i| |]; cbn [ProviderModel.pstep] in H.
  - destruct (_ =? _); [discriminate|]. destruct (p_flag s); injection H as <-; cbn; split; auto; intros; apply nth_snoc_old; assumption.
  - destruct (_ =? _); [discriminate|]. destruct (checks && _); injection H as <-; cbn; split; auto; intros; apply nth_snoc_old; assumption.
  - destruct (nth_error (p_calls s) i) as [[k|k|k|r]|] eqn:Ei; try discriminate; destruct (_ <? _); injection H as <-; cbn;
    (split; [auto|]); intros j r Hj; rewrite nth_set_nth; destruct (Nat.eqb_spec i j); try assumption; subst; congruence.
  - destruct (_ =? _); [discriminate|]. injection H as <-. auto.
  - destruct (p_handles s) as [|[|h]]; [discriminate| |].
    + destruct (forallb _ _); [|discriminate]. injection H as <-. cbn. split; [auto|]. intros. destruct (p_flag s); [assumption|apply nth_snoc_old; assumption].
    + injection H as <-. auto.
Qed.
Lemma stays_run : forall acts s s', prun s acts = Some s' ->
  (p_flag s = true -> p_flag s' = true) /\
  (forall i r, nth_error (p_calls s) i = Some (Finished r) -> nth_error (p_calls s') i = Some (Finished r)).
Proof.
  induction acts as [|a acts IH]; intros s s' H; cbn in H; [injection H as <-; auto|].
  destruct (pstep s a) as [s1|] eqn:E; [|discriminate]. destruct (stays_step _ _ _ E), (IH _ _ H). auto.
Qed.
End inv.

(** * C30 *)

(** In every execution, at every moment, the processors shut down so far are an
    initial part of the list, in order: none is shut down twice. *)
Theorem C30_at_most_once_in_order : forall n ok checks acts s,
  prun n ok checks p_init acts = Some s -> exists k, k <= n /\ shut_log (p_log s) = seq 0 k.
Proof.
  intros n ok checks acts s H. destruct (i_shut n _ (inv_run n ok checks _ _ _ (inv_init n) H)) as [(_ & H1 & _)|(i & k & _ & _ & H1 & H2 & _)].
  - exists 0. split; [lia|exact H1].
  - eauto.
Qed.
Print Assumptions C30_at_most_once_in_order.

(** Once the last handle is gone and nothing is running, every processor has
    been shut down exactly once, whether or not [shutdown] was ever called. *)
Theorem C30_exactly_once_when_gone : forall n ok checks acts s,
  prun n ok checks p_init acts = Some s -> p_handles s = 0 -> forallb is_finished (p_calls s) = true ->
  shut_log (p_log s) = seq 0 n.
Proof.
  intros n ok checks acts s H Hh Hf. rewrite forallb_forall in Hf.
  destruct (i_shut n _ (inv_run n ok checks _ _ _ (inv_init n) H)) as [(_ & _ & _ & X)|(i & k & (c & Hc & Hk) & _ & H1 & _)]; [congruence|].
  specialize (Hf c (nth_error_In _ _ Hc)). rewrite H1. destruct c as [| | |[]]; try discriminate; injection Hk as <-; reflexivity.
Qed.
Print Assumptions C30_exactly_once_when_gone.

(** The handles are counted: one to begin with, one more per clone, one fewer per drop.
    So the last of them goes exactly when as many were dropped as were ever made. *)
Definition drops (a : paction) : bool := match a with DropHandle => true | _ => false end.
Definition clones (a : paction) : bool := match a with CloneHandle => true | _ => false end.
Theorem C30_handles_counted : forall n ok checks acts s,
  prun n ok checks p_init acts = Some s ->
  p_handles s + length (filter drops acts) = 1 + length (filter clones acts).
Proof.
  intros n ok checks acts s. change 1 with (p_handles p_init). generalize p_init. revert s.
  induction acts as [|a acts IH]; intros s s0 H; cbn [prun] in H; [injection H as <-; cbn; lia|].
  destruct (pstep n ok checks s0 a) as [s1|] eqn:E; [|discriminate]. specialize (IH _ _ H).
  assert (X : p_handles s1 + (if drops a then 1 else 0) = p_handles s0 + (if clones a then 1 else 0)).
  { destruct a; cbn in E.
    - destruct (p_handles s0 =? 0); [discriminate|]. destruct (p_flag s0); injection E as <-; cbn; lia.
    - destruct (p_handles s0 =? 0); [discriminate|]. destruct (checks && p_flag s0); injection E as <-; cbn; lia.
    - destruct (nth_error (p_calls s0) i) as [[k|k|k|r]|]; try discriminate; match type of E with context [if ?b then _ else _] => destruct b end; injection E as <-; cbn; lia.
    - destruct (p_handles s0) eqn:Eh; cbn in E; [discriminate|]. injection E as <-. cbn. lia.
    - destruct (p_handles s0) as [|[|h]] eqn:Eh; [discriminate| |injection E as <-; cbn; lia].
      destruct (forallb is_finished (p_calls s0)); [|discriminate]. injection E as <-. cbn. lia. }
  cbn [filter]. destruct (drops a), (clones a); cbn [length]; lia.
Qed.
Print Assumptions C30_handles_counted.

(** As soon as one [shutdown] call has answered (Ok or with a processor's
    failure), every processor has been shut down exactly once. *)
Theorem C30_shutdown_returns_after_all : forall n ok checks acts s i,
  prun n ok checks p_init acts = Some s ->
  nth_error (p_calls s) i = Some (Finished ROk) \/ nth_error (p_calls s) i = Some (Finished RFailed) ->
  shut_log (p_log s) = seq 0 n /\ p_flag s = true.
Proof.
  intros n ok checks acts s i H Hi. pose proof (inv_run n ok checks _ _ _ (inv_init n) H) as I.
  assert (Hc : exists c, nth_error (p_calls s) i = Some c /\ shutter n c = Some n /\ shut_call c = true) by (destruct Hi; eauto).
  destruct Hc as (c & Hc & Hs & Hsc). split; [|exact (i_flag n _ I _ _ Hc Hsc)].
  destruct (i_shut n _ I) as [(X & _)|(i' & k & (c' & Hc' & Hk) & Ho & H1 & _)]; [rewrite (X _ _ Hc) in Hs; discriminate|].
  destruct (Nat.eq_dec i i') as [->|Hne]; [|rewrite (Ho _ _ Hc Hne) in Hs; discriminate].
  rewrite Hc in Hc'. injection Hc' as <-. rewrite Hs in Hk. injection Hk as <-. exact H1.
Qed.
Print Assumptions C30_shutdown_returns_after_all.

(** At most one [shutdown] call does the work; the others answer
    AlreadyShutdown.  The answer is Ok iff every processor's was. *)
Theorem C30_one_winner : forall n ok checks acts s i j ci cj,
  prun n ok checks p_init acts = Some s ->
  nth_error (p_calls s) i = Some ci -> nth_error (p_calls s) j = Some cj ->
  (exists k, ci = Shutting k) \/ ci = Finished ROk \/ ci = Finished RFailed ->
  (exists k, cj = Shutting k) \/ cj = Finished ROk \/ cj = Finished RFailed -> i = j.
Proof.
  intros n ok checks acts s i j ci cj H Hi Hj Ci Cj. pose proof (inv_run n ok checks _ _ _ (inv_init n) H) as I.
  assert (Si : shutter n ci <> None) by (destruct Ci as [[k ->]|[-> | ->]]; discriminate).
  assert (Sj : shutter n cj <> None) by (destruct Cj as [[k ->]|[-> | ->]]; discriminate).
  destruct (i_shut n _ I) as [(X & _)|(i' & k & _ & Ho & _)]; [specialize (X _ _ Hi); congruence|].
  destruct (Nat.eq_dec i i') as [->|Hne]; [|specialize (Ho _ _ Hi Hne); congruence].
  destruct (Nat.eq_dec j i') as [->|Hne]; [reflexivity|specialize (Ho _ _ Hj Hne); congruence].
Qed.
Print Assumptions C30_one_winner.

Theorem C30_call_after_call_already : forall n ok checks acts s s', prun n ok checks p_init acts = Some s ->
  p_flag s = true -> pstep n ok checks s CallShutdown = Some s' ->
  forall acts' s'', prun n ok checks s' acts' = Some s'' ->
  nth_error (p_calls s'') (length (p_calls s)) = Some (Finished RAlready).
Proof.
  intros n ok checks acts s s' H Hf Hs acts' s'' H'. apply (stays_run n ok checks _ _ _ H').
  cbn in Hs. destruct (_ =? _); [discriminate|]. rewrite Hf in Hs. injection Hs as <-. apply nth_snoc_new.
Qed.
Print Assumptions C30_call_after_call_already.

Theorem C30_answer : forall n ok, answer n ok = ROk <-> forall k, k < n -> ok k = true.
Proof.
  intros n ok. unfold answer. destruct (forallb ok (seq 0 n)) eqn:E.
  - rewrite forallb_forall in E. split; [|reflexivity]. intros _ k Hk. apply E, in_seq. lia.
  - split; [discriminate|]. intros H. assert (forallb ok (seq 0 n) = true); [|congruence].
    apply forallb_forall. intros k Hk. apply H. apply in_seq in Hk. lia.
Qed.
Print Assumptions C30_answer.

(** A span whose end begins after the provider was marked shut down is never
    given to any processor. *)
Theorem C30_nothing_delivered_after : forall n ok acts s s', prun n ok true p_init acts = Some s ->
  p_flag s = true -> pstep n ok true s CallSend = Some s' ->
  forall acts' s'', prun n ok true s' acts' = Some s'' -> sent_log (length (p_calls s)) (p_log s'') = [].
Proof.
  intros n ok acts s s' H Hf Hs acts' s'' H'.
  assert (I' : inv n s') by (eapply inv_step; [exact (inv_run n ok true _ _ _ (inv_init n) H)|exact Hs]).
  pose proof (inv_run n ok true _ _ _ I' H') as I''.
  assert (Hst : nth_error (p_calls s'') (length (p_calls s)) = Some (Finished RSkipped)).
  { apply (stays_run n ok true _ _ _ H'). cbn in Hs. destruct (_ =? _); [discriminate|]. rewrite Hf in Hs. injection Hs as <-. apply nth_snoc_new. }
  pose proof (i_send n _ I'' (length (p_calls s))) as E. rewrite Hst in E. exact E.
Qed.
Print Assumptions C30_nothing_delivered_after.

(** Any delivery goes to the processors in order, once each. *)
Theorem C30_delivery_in_order : forall n ok checks acts s i, prun n ok checks p_init acts = Some s ->
  exists k, k <= n /\ sent_log i (p_log s) = seq 0 k /\
  (nth_error (p_calls s) i = Some (Finished RDelivered) -> k = n).
Proof.
  intros n ok checks acts s i H. pose proof (i_send n _ (inv_run n ok checks _ _ _ (inv_init n) H) i) as E.
  destruct (nth_error (p_calls s) i) as [c|]; [|exists 0; split; [lia|split; [exact E|discriminate]]].
  destruct c as [| | |[]]; cbn in E;
  first [exists 0; split; [lia|split; [exact E|congruence]] | destruct E as [E1 E2]; eexists; split; [exact E1|split; [exact E2|congruence]]].
Qed.
Print Assumptions C30_delivery_in_order.

(** But an end that is under way when [shutdown] runs may still be delivered
    after [shutdown] has returned Ok. *)
Theorem C102_quiet_after_shutdown_returned_refuted : ~ (forall n ok acts acts' s s' i,
  prun n ok true p_init acts = Some s -> nth_error (p_calls s) i = Some (Finished ROk) ->
  prun n ok true s acts' = Some s' -> p_log s' = p_log s).
Proof.
  intros H.
  specialize (H 1 (fun _ => true) [CallSend; CallShutdown; Advance 1; Advance 1] [Advance 0] _ _ 1 eq_refl eq_refl eq_refl).
  discriminate.
Qed.
Print Assumptions C102_quiet_after_shutdown_returned_refuted.

Theorem C30_force_flush : forall P (flush : P -> bool) procs,
  fst (force_flush flush procs) = procs /\ (snd (force_flush flush procs) = true <-> forall p, In p procs -> flush p = true).
Proof.
  intros P flush procs. unfold force_flush. cbn [fst snd]. rewrite map_map. split; [apply map_id|].
  rewrite forallb_forall. split.
  - intros H p Hp. apply (H (p, flush p)). apply in_map_iff. eauto.
  - intros H x (p & <- & Hp)%in_map_iff. apply H, Hp.
Qed.
Print Assumptions C30_force_flush.

(** A tracer obtained after shutdown sees a provider that is shut down and has
    no processors (so C28_suppressed_or_shut_down applies to its spans). *)
Theorem C30_new_tracer_after_shutdown : forall P (procs : list P), tracer_of true procs = (true, []) /\ tracer_of false procs = (false, procs).
Proof. split; reflexivity. Qed.
Print Assumptions C30_new_tracer_after_shutdown.

Example C30_nonvacuous :
  option_map (fun s => (p_calls s, shut_log (p_log s)))
    (prun 2 (fun _ => true) true p_init
       [CloneHandle; CallSend; CallShutdown; CallShutdown; Advance 0; Advance 1; DropHandle; CallSend; Advance 0; Advance 0; Advance 1; Advance 1; DropHandle]) =
  Some ([Finished RDelivered; Finished ROk; Finished RAlready; Finished RSkipped], [0; 1]) /\
  option_map (fun s => (p_calls s, shut_log (p_log s)))
    (prun 2 (fun _ => true) true p_init [DropHandle; Advance 0; Advance 0; Advance 0]) = Some ([Finished RDropped], [0; 1]).
Proof. split; reflexivity. Qed.
