(** Lemmas about spans. *)
From Coq Require Import List NArith ZArith Bool Lia.
From Coq Require Import ZifyBool ZifyNat ZifyN.
From Verif Require Import Str StrProofs ContextModel TraceModel Carrier SamplerModel SpanModel SpanSpec.
Import ListNotations.
Local Open Scope N_scope.

Lemma keep_full {B} n (l : list B) x : (count (keep n l) <? n) = false ->
  keep n (l ++ [x]) = keep n l /\ excess n (l ++ [x]) = u32 (excess n l + 1).
Proof.
  unfold count, keep, excess, u32. rewrite firstn_length. intros H.
  assert (Hl : (N.to_nat n <= length l)%nat) by lia. split.
  - rewrite firstn_app. replace (N.to_nat n - length l)%nat with 0%nat by lia. apply app_nil_r.
  - rewrite app_length. cbn [length]. rewrite N.add_mod_idemp_l by discriminate. f_equal. lia.
Qed.
Lemma keep_room {B} n (l : list B) x : (count (keep n l) <? n) = true ->
  keep n (l ++ [x]) = keep n l ++ [x] /\ excess n (l ++ [x]) = excess n l.
Proof.
  unfold count, keep, excess. rewrite firstn_length. intros H.
  assert (Hl : (length l < N.to_nat n)%nat) by lia. split.
  - rewrite !firstn_all2; [reflexivity|lia|rewrite app_length; cbn [length]; lia].
  - rewrite app_length. cbn [length]. f_equal. lia.
Qed.
Lemma keep_app {B} n (l m : list B) : keep n (l ++ m) = keep n (keep n l ++ m).
Proof.
  unfold keep. rewrite !firstn_app, firstn_firstn, Nat.min_id. f_equal. rewrite firstn_length.
  destruct (Nat.le_gt_cases (N.to_nat n) (length l)).
  - replace (N.to_nat n - length l)%nat with 0%nat by lia.
    replace (N.to_nat n - Nat.min (N.to_nat n) (length l))%nat with 0%nat by lia. reflexivity.
  - f_equal. lia.
Qed.
Lemma count_map {B C} (f : B -> C) l : count (map f l) = count l.
Proof. unfold count. rewrite map_length. reflexivity. Qed.

Section lemmas.
Context {A : Type}.
Implicit Types (d : span_data A) (l : limits).

Lemma set_attribute_offered l (a : A) (oa : list A) oe ol d : holds_offered l oa oe ol d ->
  holds_offered l (oa ++ [a]) oe ol (data_set_attribute l a d).
Proof.
  intros (H1 & H2 & H). unfold data_set_attribute. rewrite H1.
  destruct (count (keep (max_attrs l) oa) <? max_attrs l) eqn:E.
  - destruct (keep_room _ oa a E) as [K1 K2]. unfold holds_offered. cbn. rewrite K1, K2, H2. tauto.
  - destruct (keep_full _ oa a E) as [K1 K2]. unfold holds_offered. cbn. rewrite K1, K2, H2. tauto.
Qed.
Lemma add_event_offered l n t (a oa : list A) oe ol d : holds_offered l oa oe ol d ->
  holds_offered l oa (oe ++ [(n, t, a)]) ol (data_add_event l n t a d).
Proof.
  intros (H1 & H2 & H3 & H4 & H). unfold data_add_event. rewrite H3, count_map.
  destruct (count (keep (max_events l) oe) <? max_events l) eqn:E.
  - destruct (keep_room _ oe (n, t, a) E) as [K1 K2]. unfold holds_offered. cbn [sd_attrs sd_attrs_dropped sd_events sd_events_dropped sd_links sd_links_dropped]. rewrite K1, K2, map_app, H4. cbn [map]. tauto.
  - destruct (keep_full _ oe (n, t, a) E) as [K1 K2]. unfold holds_offered. cbn [sd_attrs sd_attrs_dropped sd_events sd_events_dropped sd_links sd_links_dropped]. rewrite K1, K2, H4. tauto.
Qed.
Lemma add_link_offered l sc (a oa : list A) oe ol d : holds_offered l oa oe ol d ->
  holds_offered l oa oe (ol ++ [(sc, a)]) (data_add_link l sc a d).
Proof.
  intros (H1 & H2 & H3 & H4 & H5 & H6). unfold data_add_link. rewrite H5, count_map.
  destruct (count (keep (max_links l) ol) <? max_links l) eqn:E.
  - destruct (keep_room _ ol (sc, a) E) as [K1 K2]. unfold holds_offered. cbn [sd_attrs sd_attrs_dropped sd_events sd_events_dropped sd_links sd_links_dropped]. rewrite K1, K2, map_app, H6. cbn [map]. tauto.
  - destruct (keep_full _ ol (sc, a) E) as [K1 K2]. unfold holds_offered. cbn [sd_attrs sd_attrs_dropped sd_events sd_events_dropped sd_links sd_links_dropped]. rewrite K1, K2, H6. tauto.
Qed.
Lemma set_attributes_offered l (a : list A) : forall oa oe ol d, holds_offered l oa oe ol d ->
  holds_offered l (oa ++ a) oe ol (fold_left (fun d a => data_set_attribute l a d) a d).
Proof.
  induction a as [|x a IH]; intros oa oe ol d H; [rewrite app_nil_r; exact H|].
  cbn [fold_left]. replace (oa ++ x :: a) with ((oa ++ [x]) ++ a) by (rewrite <- app_assoc; reflexivity).
  apply IH, set_attribute_offered, H.
Qed.

Lemma op_offered l (o : span_op A) oa oe ol d : holds_offered l oa oe ol d ->
  holds_offered l (oa ++ offered_attrs o) (oe ++ offered_events o) (ol ++ offered_links o) (data_op l o d).
Proof.
  intros H. destruct o; cbn [offered_attrs offered_events offered_links data_op]; rewrite ?app_nil_r.
  - apply add_event_offered, H.
  - apply add_event_offered, H.
  - apply set_attribute_offered, H.
  - apply set_attributes_offered, H.
  - unfold data_set_status. destruct (status_ltb _ _); exact H.
  - exact H.
  - apply add_link_offered, H.
Qed.
Lemma ops_offered l (os : list (span_op A)) : forall oa oe ol d, holds_offered l oa oe ol d ->
  holds_offered l (oa ++ flat_map offered_attrs os) (oe ++ flat_map offered_events os) (ol ++ flat_map offered_links os)
    (fold_left (fun d o => data_op l o d) os d).
Proof.
  induction os as [|o os IH]; intros oa oe ol d H; cbn [flat_map fold_left]; [rewrite !app_nil_r; exact H|].
  rewrite !app_assoc. apply IH, op_offered, H.
Qed.

Lemma build_offered l psc sc (b : builder A) extra now : exists d,
  build_recording_span l psc sc b extra now = mk_span sc (Some d) l /\
  holds_offered l (or_nil (sb_attrs b) ++ extra) (builder_events b) (builder_links b) d /\
  sd_parent d = sc_span psc /\ sd_kind d = match sb_kind b with Some k => k | None => INTERNAL end /\
  sd_name d = sb_name b /\ sd_start d = match sb_start b with Some t => t | None => now end /\
  sd_end d = match sb_end b with Some t => t | None => sd_start d end /\ sd_status d = sb_status b.
Proof.
  unfold build_recording_span, builder_events, builder_links.
  destruct (sb_links b) as [ls|], (sb_events b) as [es|]; cbn [or_nil];
  (eexists; split; [reflexivity|]); (split; [|cbn; auto 8]);
  unfold holds_offered; cbn [sd_attrs sd_attrs_dropped sd_events sd_events_dropped sd_links sd_links_dropped];
  unfold truncate, count, u32, keep, excess; rewrite ?firstn_map, ?map_map, ?map_length; cbn [map length];
  rewrite ?firstn_nil; cbn [map]; repeat split.
Qed.

(** Operations change only their part. *)
Lemma set_attribute_rest l (a : A) d : let d' := data_set_attribute l a d in
  sd_parent d' = sd_parent d /\ sd_kind d' = sd_kind d /\ sd_name d' = sd_name d /\
  sd_start d' = sd_start d /\ sd_end d' = sd_end d /\ sd_status d' = sd_status d.
Proof. cbv zeta. unfold data_set_attribute. destruct (_ <? _); cbn; auto 8. Qed.
Lemma set_attributes_rest l (a : list A) : forall d, let d' := fold_left (fun d a => data_set_attribute l a d) a d in
  sd_parent d' = sd_parent d /\ sd_kind d' = sd_kind d /\ sd_name d' = sd_name d /\
  sd_start d' = sd_start d /\ sd_end d' = sd_end d /\ sd_status d' = sd_status d.
Proof.
  induction a as [|x a IH]; intros d; cbn [fold_left]; [auto 8|]. cbv zeta in *.
  destruct (IH (data_set_attribute l x d)) as (-> & -> & -> & -> & -> & ->). apply set_attribute_rest.
Qed.

Definition last_or {B} (l : list B) (x : B) : B := last l x.
Definition join (s : status) (l : list status) : status :=
  fold_left (fun a b => if status_ltb a b then b else a) l s.

Lemma op_rest l (o : span_op A) d : let d' := data_op l o d in
  sd_parent d' = sd_parent d /\ sd_kind d' = sd_kind d /\ sd_start d' = sd_start d /\ sd_end d' = sd_end d /\
  sd_name d' = last_or (offered_names o) (sd_name d) /\ sd_status d' = join (sd_status d) (offered_status o).
Proof.
  cbv zeta. destruct o; cbn [data_op offered_names offered_status]; unfold last_or; cbn [last join fold_left].
  - unfold data_add_event. destruct (_ <? _); cbn; auto 8.
  - unfold data_add_event. destruct (_ <? _); cbn; auto 8.
  - destruct (set_attribute_rest l a d) as (? & ? & ? & ? & ? & ?). cbn; auto 8.
  - destruct (set_attributes_rest l attrs d) as (? & ? & ? & ? & ? & ?). cbn; auto 8.
  - unfold data_set_status, join. cbn [fold_left]. destruct (status_ltb _ _); cbn; auto 8.
  - cbn; auto 8.
  - unfold data_add_link. destruct (_ <? _); cbn; auto 8.
Qed.
Lemma last_app {B} (l m : list B) x : last (l ++ m) x = last m (last l x).
Proof.
  destruct m as [|y m] using rev_ind; [rewrite app_nil_r; reflexivity|].
  rewrite app_assoc, !last_last. reflexivity.
Qed.
Lemma ops_rest l (os : list (span_op A)) : forall d, let d' := fold_left (fun d o => data_op l o d) os d in
  sd_parent d' = sd_parent d /\ sd_kind d' = sd_kind d /\ sd_start d' = sd_start d /\ sd_end d' = sd_end d /\
  sd_name d' = last_or (flat_map offered_names os) (sd_name d) /\ sd_status d' = join (sd_status d) (flat_map offered_status os).
Proof.
  induction os as [|o os IH]; intros d; [cbn; auto 8|]. cbn [fold_left flat_map]. cbv zeta in *.
  destruct (IH (data_op l o d)) as (-> & -> & -> & -> & -> & ->).
  destruct (op_rest l o d) as (-> & -> & -> & -> & -> & ->). unfold last_or, join. rewrite last_app, fold_left_app. auto 8.
Qed.

(** [span_apply] over a list. *)
Lemma apply_all (os : list (span_op A)) : forall s, fold_left (fun s o => span_apply o s) os s =
  mk_span (sp_ctx s) (option_map (fun d => fold_left (fun d o => data_op (sp_limits s) o d) os d) (sp_data s)) (sp_limits s).
Proof.
  induction os as [|o os IH]; intros s; cbn [fold_left].
  - destruct s as [c [d|] l]; reflexivity.
  - rewrite IH. unfold span_apply. cbn [sp_ctx sp_limits sp_data]. destruct (sp_data s); reflexivity.
Qed.
End lemmas.

(** Statuses. *)
Lemma str_ltb_lt : forall a b, str_ltb a b = true <-> str_lt a b.
Proof.
  induction a as [|x a IH]; intros [|y b]; cbn [str_ltb].
  - split; [discriminate|]. inversion 1.
  - split; [constructor|reflexivity].
  - split; [discriminate|]. inversion 1.
  - destruct (N.ltb_spec x y).
    + split; [constructor; assumption|reflexivity].
    + destruct (N.ltb_spec y x).
      * split; [discriminate|]. inversion 1; subst; lia.
      * assert (x = y) by (unfold char in *; lia). subst. rewrite IH. split; [constructor; assumption|]. inversion 1; subst; [lia|assumption].
Qed.
Lemma str_lt_total : forall a b, str_lt a b \/ a = b \/ str_lt b a.
Proof.
  induction a as [|x a IH]; intros [|y b]; [auto|left; constructor|right; right; constructor|].
  destruct (N.lt_trichotomy x y) as [H|[->|H]].
  - left. constructor. exact H.
  - destruct (IH b) as [H|[->|H]]; [left; constructor; exact H|auto|right; right; constructor; exact H].
  - right; right. constructor. exact H.
Qed.
Lemma str_lt_trans : forall a b c, str_lt a b -> str_lt b c -> str_lt a c.
Proof.
  intros a b c H. revert c. induction H; intros c Hc.
  - inversion Hc; subst; constructor.
  - inversion Hc; subst; constructor; lia.
  - inversion Hc; subst; [constructor; assumption|apply lt_tail; auto].
Qed.
Lemma status_ltb_weaker a b : if status_ltb a b then weaker a b else weaker b a.
Proof.
  destruct a as [|x|], b as [|y|]; cbn [status_ltb]; try constructor.
  destruct (str_ltb x y) eqn:E.
  - constructor. apply str_ltb_lt, E.
  - destruct (str_lt_total x y) as [H|[->|H]]; [|constructor|constructor; exact H].
    apply str_ltb_lt in H. congruence.
Qed.
Lemma weaker_trans a b c : weaker a b -> weaker b c -> weaker a c.
Proof.
  intros H1 H2. inversion H1; subst; inversion H2; subst; try (constructor; fail); try assumption.
  constructor. eapply str_lt_trans; eassumption.
Qed.
Lemma str_lt_irrefl : forall a, ~ str_lt a a.
Proof. induction a as [|x a IH]; inversion 1; subst; [lia|auto]. Qed.
Lemma weaker_antisym a b : weaker a b -> weaker b a -> a = b.
Proof.
  intros H1 H2. inversion H1; subst; inversion H2; subst; try reflexivity.
  exfalso. eapply str_lt_irrefl, str_lt_trans; eassumption.
Qed.

Lemma join_strongest : forall l s, In (join s l) (s :: l) /\ forall x, In x (s :: l) -> weaker x (join s l).
Proof.
  induction l as [|y l IH]; intros s; cbn [join fold_left].
  - split; [left; reflexivity|]. intros x [->|[]]. constructor.
  - change (fold_left (fun a b => if status_ltb a b then b else a) l (if status_ltb s y then y else s)) with (join (if status_ltb s y then y else s) l).
    destruct (IH (if status_ltb s y then y else s)) as [H1 H2]. pose proof (status_ltb_weaker s y) as Hw.
    destruct (status_ltb s y).
    + split; [right; exact H1|]. intros x [<-|H]; [eapply weaker_trans; [exact Hw|apply H2; left; reflexivity]|apply H2, H].
    + split; [destruct H1; cbn [In]; tauto|]. intros x [<-|[<-|H]];
        [apply H2; left; reflexivity|eapply weaker_trans; [exact Hw|apply H2; left; reflexivity]|apply H2; right; exact H].
Qed.
