(** Proofs about the stdout exporters. *)
From Coq Require Import String List NArith ZArith Bool Lia Arith.
From Verif Require Import Str F64 TraceModel SpanModel LogModel AttrModel KvModel OtlpModel StdoutModel StdoutSpec.
Import ListNotations.
Local Open Scope string_scope.
Local Open Scope list_scope.

Definition clear (bad : list string) (ls : list line) : Prop := forall t, In t bad -> at_label t ls = false.

Lemma clear_nil bad : clear bad [].
Proof. intros t _. reflexivity. Qed.

Lemma at_opt {A} t (pr : A -> line) o rest :
  (forall a, String.eqb t (fst (pr a)) = false) -> at_label t rest = false -> at_label t (opt pr o ++ rest) = false.
Proof. intros H R. destruct o as [a |]; cbn; [| exact R]. specialize (H a). destruct (pr a). exact H. Qed.

Lemma at_headed {A} t h (pr : nat -> A -> list line) l rest :
  String.eqb t h = false -> at_label t rest = false -> at_label t (headed h pr l ++ rest) = false.
Proof. intros H R. destruct l; cbn; [exact R | exact H]. Qed.

Lemma at_map {A} t (pr : A -> line) l rest :
  (forall a, String.eqb t (fst (pr a)) = false) -> at_label t rest = false -> at_label t (map pr l ++ rest) = false.
Proof. intros H R. destruct l as [| a l]; cbn; [exact R |]. specialize (H a). destruct (pr a). exact H. Qed.

Definition numbered_from {A} (i : nat) (f : nat -> A -> list line) (l : list A) : list line := flat_map (fun '(i, a) => f i a) (combine (seq i (List.length l)) l).

Lemma numbered_from_cons {A} i (f : nat -> A -> list line) a l : numbered_from i f (a :: l) = f i a ++ numbered_from (S i) f l.
Proof. reflexivity. Qed.

Lemma at_numbered {A} t h (pr : nat -> A -> list line) :
  (forall i a, label (pr i a) = Some h) -> String.eqb t h = false ->
  forall l i rest, at_label t rest = false -> at_label t (numbered_from i pr l ++ rest) = false.
Proof.
  intros L H l i rest R. destruct l as [| a l]; [exact R |]. rewrite numbered_from_cons, <- app_assoc.
  specialize (L i a). destruct (pr i a) as [| [t' ar] tl]; [discriminate |]. injection L as ->. exact H.
Qed.

Lemma optional_ok {A X} t (dec : list arg -> option X) (pr : A -> line) (v : A -> X) o rest :
  (forall a, fst (pr a) = t) -> (forall a, dec (snd (pr a)) = Some (v a)) -> at_label t rest = false ->
  optional t dec (opt pr o ++ rest) = Some (option_map v o, rest).
Proof.
  intros F D R. unfold optional. destruct o as [a |]; cbn [opt app option_map].
  - specialize (F a). specialize (D a). destruct (pr a) as [t' ar]. cbn in F, D. subst t'. unfold at_label, label, field. rewrite String.eqb_refl, D. reflexivity.
  - rewrite R. reflexivity.
Qed.

Lemma lines_ok {A X} t (dec : list arg -> option X) (pr : A -> line) (v : A -> X) rest :
  (forall a, fst (pr a) = t) -> (forall a, dec (snd (pr a)) = Some (v a)) -> at_label t rest = false ->
  forall l, lines t dec (map pr l ++ rest) = Some (map v l, rest).
Proof.
  intros F D R. induction l as [| a l IH]; cbn [map app].
  - destruct rest as [| [t' ar] rest]; [reflexivity |]. cbn. unfold at_label, label in R. rewrite R. reflexivity.
  - pose proof (F a) as Fa. pose proof (D a) as Da. destruct (pr a) as [t' ar]. cbn in Fa, Da. subst t'. cbn [lines]. rewrite String.eqb_refl, Da, IH. reflexivity.
Qed.

Lemma items_ok {A X} (bad : list string) t (p : nat -> reader X) (pr : nat -> A -> list line) (v : A -> X) :
  (forall i a rest, clear bad rest -> p i (pr i a ++ rest) = Some (v a, rest)) ->
  (forall i a, label (pr i a) = Some t) -> existsb (String.eqb t) bad = false ->
  forall l i fuel rest, clear (t :: bad) rest -> List.length l <= fuel ->
    items fuel t p i (numbered_from i pr l ++ rest) = Some (map v l, rest).
Proof.
  intros P L NB. induction l as [| a l IH]; intros i fuel rest C F.
  - pose proof (C t (or_introl eq_refl)) as E. destruct fuel; cbn [items numbered_from List.length seq combine flat_map app map]; rewrite E; reflexivity.
  - destruct fuel as [| fuel]; [cbn in F; lia |]. rewrite numbered_from_cons, <- app_assoc. cbn [items].
    assert (B : at_label t (pr i a ++ numbered_from (S i) pr l ++ rest) = true).
    { specialize (L i a). destruct (pr i a) as [| [t' ar] tl]; [discriminate |]. injection L as ->. apply String.eqb_refl. }
    rewrite B, P.
    + rewrite IH by (assumption || (cbn in F; lia)). reflexivity.
    + intros t' I. apply (at_numbered t' t); [exact L | | apply C; right; exact I].
      apply not_true_is_false. intro E. apply String.eqb_eq in E. subst t'.
      assert (X1 : existsb (String.eqb t) bad = true) by (apply existsb_exists; exists t; split; [exact I | apply String.eqb_refl]). congruence.
Qed.

Lemma numbered_length {A} (pr : nat -> A -> list line) t : (forall i a, label (pr i a) = Some t) ->
  forall l i, List.length l <= List.length (numbered_from i pr l).
Proof.
  intros L. induction l as [| a l IH]; intro i; [cbn; lia |]. rewrite numbered_from_cons, app_length. specialize (IH (S i)).
  specialize (L i a). destruct (pr i a); [discriminate |]. cbn. lia.
Qed.

Lemma all_items_ok {A X} (bad : list string) t (p : nat -> reader X) (pr : nat -> A -> list line) (v : A -> X) l rest :
  (forall i a rest, clear bad rest -> p i (pr i a ++ rest) = Some (v a, rest)) ->
  (forall i a, label (pr i a) = Some t) -> existsb (String.eqb t) bad = false -> clear (t :: bad) rest ->
  all_items t p (numbered pr l ++ rest) = Some (map v l, rest).
Proof.
  intros P L NB C. unfold all_items. apply (items_ok bad); try assumption. rewrite app_length.
  pose proof (numbered_length pr t L l 0) as G. unfold numbered_from in G. unfold numbered. lia.
Qed.

Lemma section_ok {A X} h (p : reader (list X)) (pr : nat -> A -> list line) (v : A -> X) l rest :
  (forall l, p (numbered pr l ++ rest) = Some (map v l, rest)) -> at_label h rest = false ->
  section h p (headed h pr l ++ rest) = Some (map v l, rest).
Proof.
  intros P R. destruct l as [| a l].
  - cbn. unfold section. rewrite R. reflexivity.
  - change (headed h pr (a :: l) ++ rest) with ((h, []) :: (numbered pr (a :: l) ++ rest)). unfold section, at_label, label, bind, field.
    rewrite String.eqb_refl. cbn [option_map]. apply P.
Qed.

Lemma numbered_singles {A} (pr : A -> line) l : numbered (fun _ a => [pr a]) l = map pr l.
Proof. unfold numbered. generalize 0. induction l as [| a l IH]; intro i; [reflexivity |]. cbn. rewrite IH. reflexivity. Qed.

(** Goals [at_label t ls = false]. *)
Ltac inl := repeat first [left; reflexivity | right].
Ltac lab :=
  repeat first
    [ reflexivity | assumption
    | match goal with C : clear _ ?r |- at_label _ ?r = false => solve [apply C; inl] end
    | apply at_opt; [intros; reflexivity |] | apply at_headed; [reflexivity |] | apply at_map; [intros; reflexivity |]
    | (match goal with |- at_label ?t (numbered ?pr ?l ++ ?r) = false => change (numbered pr l) with (numbered_from 0 pr l) end;
       eapply at_numbered; [intros; reflexivity | reflexivity |]) ].
(** One step of a reader. *)
Ltac fld := match goal with |- bind (field ?t ?f) ?k ((?t', ?a) :: ?r) = _ => change (bind (field t f) k ((t', a) :: r)) with (bind (fun _ => f a) k r) end.

Lemma bind_some {X Y} (p : reader X) (f : X -> reader Y) ls x r : p ls = Some (x, r) -> bind p f ls = f x r.
Proof. unfold bind. intros ->. reflexivity. Qed.

Lemma field_ok {X} t (f : list arg -> option X) a r x : f a = Some x -> field t f ((t, a) :: r) = Some (x, r).
Proof. intro H. unfold field. rewrite String.eqb_refl, H. reflexivity. Qed.

Lemma index_ok i : index i [AIndex i] = Some tt.
Proof. cbn. rewrite Nat.eqb_refl. reflexivity. Qed.

Ltac step := first
  [ erewrite bind_some; [| apply field_ok; first [apply index_ok | reflexivity]]
  | erewrite bind_some; [| eapply optional_ok; [intros; reflexivity | intros; reflexivity | lab]]
  | erewrite bind_some; [| eapply lines_ok; [intros; reflexivity | intros; reflexivity | lab]] ].

Lemma opt_id {A} (o : option A) : option_map (fun x => x) o = o.
Proof. destruct o; reflexivity. Qed.

Definition scope_labels : list string := ["		Version  : {}"; "		SchemaUrl: {}"; "		Scope Attributes:"; "			 ->  {}: {}"].

Lemma read_scope_ok sc rest : clear scope_labels rest -> read_scope (print_scope sc ++ rest) = Some (sc, rest).
Proof.
  intro C. unfold read_scope, print_scope. rewrite <- !app_assoc. cbn [app].
  step. do 2 (erewrite bind_some; [| apply (optional_ok _ _ _ (fun x => x)); [reflexivity | reflexivity | lab]]).
  erewrite bind_some; [| apply (section_ok _ _ _ (fun a : attr => a)); [| lab]].
  - unfold ret. rewrite map_id, !opt_id. destruct sc. reflexivity.
  - intro l. rewrite (numbered_singles (fun a => ("			 ->  {}: {}", [AAttr a]))). apply (lines_ok _ _ _ (fun x => x)); [reflexivity | reflexivity | lab].
Qed.

Definition attr_labels : list string := ["	Attributes:"; "		 ->  {}: {:?}"].

Lemma read_attrs_ok l rest : clear attr_labels rest -> read_attrs (print_attrs l ++ rest) = Some (l, rest).
Proof.
  intro C. unfold read_attrs, print_attrs. rewrite <- (map_id l) at 2. apply section_ok; [| lab].
  intro l'. rewrite (numbered_singles (fun a => ("		 ->  {}: {:?}", [AAttr a]))). apply (lines_ok _ _ _ (fun x => x)); [reflexivity | reflexivity | lab].
Qed.

(** ** Spans *)
Definition seen_event (e : @event attr) : str * Z * list attr := (ev_name e, (ev_time e / 1000)%Z, ev_attrs e).
Definition seen_link (l : @link attr) : N * N * list attr := (sc_trace (ln_sc l), sc_span (ln_sc l), ln_attrs l).

Lemma read_event_ok i e rest : clear attr_labels rest -> read_event i (print_event i e ++ rest) = Some (seen_event e, rest).
Proof.
  intro C. unfold read_event, print_event. rewrite <- !app_assoc. cbn [app]. step. step. step.
  erewrite bind_some; [| apply read_attrs_ok; exact C]. reflexivity.
Qed.

Lemma read_link_ok i l rest : clear attr_labels rest -> read_link i (print_link i l ++ rest) = Some (seen_link l, rest).
Proof.
  intro C. unfold read_link, print_link. rewrite <- !app_assoc. cbn [app]. step. step. step.
  erewrite bind_some; [| apply read_attrs_ok; exact C]. reflexivity.
Qed.

Definition span_labels : list string := attr_labels ++ ["	Events:"; "	Event #{}"; "	Links:"; "	Link #{}"].

Ltac clr := let t := fresh "t" in let I := fresh "I" in
  intros t I; cbn [In app scope_labels attr_labels span_labels] in I; repeat destruct I as [<- | I]; try contradiction; lab.

Lemma read_span_ok i s rest : clear span_labels rest -> read_span i (print_span i s ++ rest) = Some (seen_span s, rest).
Proof.
  intro C. unfold read_span, print_span. rewrite <- !app_assoc. cbn [app]. step. step.
  erewrite bind_some; [| apply read_scope_ok; clr]. do 10 step.
  erewrite bind_some; [| apply read_attrs_ok; clr].
  erewrite bind_some; [| apply (section_ok _ _ _ seen_event); [| unfold span_labels in C; lab; apply C; inl]].
  2: { intro l. apply (all_items_ok attr_labels); [apply read_event_ok | reflexivity | reflexivity |]. clr; unfold span_labels in C; apply C; inl. }
  erewrite bind_some; [| apply (section_ok _ _ _ seen_link); [| apply C; inl]].
  2: { intro l. apply (all_items_ok attr_labels); [apply read_link_ok | reflexivity | reflexivity |]. clr; apply C; inl. }
  reflexivity.
Qed.

Lemma read_spans_ok l rest : clear ("Span #{}" :: span_labels) rest -> read_spans (print_spans l ++ rest) = Some (map seen_span l, rest).
Proof. intro C. apply (all_items_ok span_labels); [apply read_span_ok | reflexivity | reflexivity | exact C]. Qed.

(** ** Log records *)
Definition log_labels : list string := ["		 ->  {}: {:?}"].

Lemma at_trace t o rest : String.eqb t "	 TraceId: {:?}" = false -> at_label t rest = false ->
  at_label t (match o with Some x => print_trace x | None => [] end ++ rest) = false.
Proof. intros E R. destruct o; [exact E | exact R]. Qed.

Lemma read_log_ok i x rest : clear log_labels rest -> read_log i (print_log i x ++ rest) = Some (seen_log x, rest).
Proof.
  intro C. destruct x as [r sc]. unfold read_log, print_log. cbn [fst snd]. rewrite <- !app_assoc. cbn [app]. step. step.
  erewrite bind_some; [| apply (optional_ok _ _ _ (fun x => x)); [reflexivity | reflexivity | lab; apply at_trace; [reflexivity | lab]]].
  erewrite bind_some; [| apply (optional_ok _ _ _ (fun x => x)); [reflexivity | reflexivity | lab; apply at_trace; [reflexivity | lab]]].
  assert (T : forall rest, at_label "	 TraceId: {:?}" rest = false -> at_label "	 TraceFlags: {:?}" rest = false ->
    read_trace (match lr_trace r with Some t => print_trace t | None => [] end ++ rest) =
    Some (option_map (fun t => (tc_trace t, tc_span t, tc_flags t)) (lr_trace r), rest)).
  { intros r' R1 R2. destruct (lr_trace r) as [t |]; unfold read_trace.
    - change (at_label "	 TraceId: {:?}" (print_trace t ++ r')) with true. cbv iota. unfold print_trace. rewrite <- !app_assoc. cbn [app].
      step. step. erewrite bind_some; [| apply (optional_ok _ _ _ (fun x => x)); [reflexivity | reflexivity | exact R2]]. rewrite opt_id. reflexivity.
    - cbn [app]. rewrite R1. reflexivity. }
  erewrite bind_some; [| apply T; lab].
  erewrite bind_some; [| apply (optional_ok _ _ _ (fun x => (x / 1000)%Z)); [reflexivity | reflexivity | lab]].
  erewrite bind_some; [| apply (optional_ok _ _ _ (fun x => (x / 1000)%Z)); [reflexivity | reflexivity | lab]].
  do 3 (erewrite bind_some; [| apply (optional_ok _ _ _ (fun x => x)); [reflexivity | reflexivity | lab]]).
  step. erewrite bind_some; [| apply (lines_ok _ _ _ (fun x => x)); [reflexivity | reflexivity | lab]].
  rewrite !opt_id, map_id. reflexivity.
Qed.

Lemma read_logs_ok l rest : clear ("Log #{}" :: log_labels) rest -> read_logs (print_logs l ++ rest) = Some (map seen_log l, rest).
Proof. intro C. apply (all_items_ok log_labels); [apply read_log_ok | reflexivity | reflexivity | exact C]. Qed.

(** ** Metrics *)
Section number.
Context {T : Type} (pr : T -> arg) (num : T -> vnum).
Context (pr_ok : forall x, number [pr x] = Some (num x)).

Lemma read_npoint_ok i p rest : clear ["				 ->  {}: {}"] rest ->
  read_npoint number i (print_npoint pr i p ++ rest) = Some ((num (n_value p), n_attrs p), rest).
Proof.
  intro C. unfold read_npoint, print_npoint, print_point_attrs. rewrite <- !app_assoc. cbn [app]. step.
  erewrite bind_some; [| apply field_ok; apply pr_ok]. step.
  erewrite bind_some; [| apply (lines_ok _ _ _ (fun x => x)); [reflexivity | reflexivity | lab]]. rewrite map_id. reflexivity.
Qed.

Fixpoint chain (low : option f64) (bounds : list f64) (counts : list N) : list (option f64 * option f64 * N) :=
  let c := match counts with c :: _ => c | [] => 0%N end in
  match bounds with
  | [] => [(low, None, c)]
  | b :: bounds => (low, Some b, c) :: chain (Some b) bounds (tl counts)
  end.

Lemma chain_seen bounds : forall low counts,
  chain low bounds counts =
  map (fun k => (match k with 0 => low | S k => nth_error bounds k end, nth_error bounds k, nth k counts 0%N)) (seq 0 (S (List.length bounds))).
Proof.
  induction bounds as [| b bounds IH]; intros low counts; [destruct counts; reflexivity |].
  cbn [chain]. rewrite IH. change (seq 0 (S (List.length (b :: bounds)))) with (0 :: seq 1 (S (List.length bounds))).
  rewrite <- seq_shift. cbn [map]. rewrite map_map. f_equal; [destruct counts; reflexivity |].
  apply map_ext. intro k. cbn [nth_error]. f_equal; [| destruct counts; [destruct k; reflexivity | reflexivity]]. destruct k; reflexivity.
Qed.

Lemma print_buckets_ok bounds : forall low counts rest,
  exists b z r, lines "				 {} to {} : {}" range (print_buckets low bounds counts ++ rest) = Some (b, r) /\
    field "				{} to +Infinity : {}" last_range r = Some (z, rest) /\ (b ++ [z])%list = chain low bounds counts.
Proof.
  induction bounds as [| x bounds IH]; intros low counts rest; cbn [print_buckets chain].
  - eexists [], _, _. split; [reflexivity |]. split; [| reflexivity]. cbn. destruct low; reflexivity.
  - destruct (IH (Some x) (tl counts) rest) as (b & z & r & E1 & E2 & E3). cbn [app lines]. rewrite String.eqb_refl, E1.
    eexists (_ :: b), z, r. split; [| split; [exact E2 |]].
    + destruct low; cbn; reflexivity.
    + cbn [app]. rewrite E3. destruct low; reflexivity.
Qed.

Lemma read_hpoint_ok i p rest :
  read_hpoint number i (print_hpoint pr i p ++ rest) =
  Some ((h_count p, num (h_sum p), option_map num (h_min p), option_map num (h_max p), h_attrs p, seen_buckets (h_bounds p) (h_buckets p)), rest).
Proof.
  unfold read_hpoint, print_hpoint, print_point_attrs. rewrite <- !app_assoc. cbn [app]. step. step.
  erewrite bind_some; [| apply field_ok; apply pr_ok].
  erewrite bind_some; [| apply (optional_ok _ _ _ num); [reflexivity | intro; apply pr_ok | lab]].
  erewrite bind_some; [| apply (optional_ok _ _ _ num); [reflexivity | intro; apply pr_ok | lab]]. step.
  rewrite <- ?app_assoc. cbn [app].
  erewrite bind_some; [| apply (lines_ok _ _ _ (fun x => x)); [reflexivity | reflexivity | lab]]. step.
  destruct (print_buckets_ok (h_bounds p) None (h_buckets p) rest) as (b & z & r & E1 & E2 & E3).
  erewrite bind_some; [| exact E1]. erewrite bind_some; [| exact E2]. unfold ret. rewrite E3, chain_seen, map_id. reflexivity.
Qed.

Lemma read_temporality_ok t rest : read_temporality (print_temporality t ++ rest) = Some (cumulative t, rest).
Proof. destruct t; reflexivity. Qed.

Definition point_labels : list string := ["		DataPoint #{}"; "				 ->  {}: {}"].

Lemma read_info_ok d rest : clear point_labels rest -> read_info number (print_info pr d ++ rest) = Some (seen_data num d, rest).
Proof.
  intro C. destruct d as [ps s e | ps s e t m | ps s e t | ps s e t]; unfold read_info, print_info.
  - rewrite <- !app_assoc. cbn [app].
    match goal with |- (if ?b then _ else _) = _ => change b with true end. cbv iota. step. step.
    erewrite bind_some; [| apply (optional_ok _ _ _ (fun x => (x / 1000)%Z)); [reflexivity | reflexivity | lab]]. step.
    erewrite bind_some; [| apply (all_items_ok ["				 ->  {}: {}"]); [apply read_npoint_ok | reflexivity | reflexivity | exact C]].
    reflexivity.
  - rewrite <- !app_assoc. cbn [app].
    match goal with |- (if ?b then _ else _) = _ => change b with false end. cbv iota.
    match goal with |- (if ?b then _ else _) = _ => change b with true end. cbv iota. step. step. step.
    erewrite bind_some; [| apply read_temporality_ok]. cbn [app]. step. step.
    erewrite bind_some; [| apply (all_items_ok ["				 ->  {}: {}"]); [apply read_npoint_ok | reflexivity | reflexivity | exact C]].
    reflexivity.
  - rewrite <- !app_assoc. cbn [app].
    do 2 (match goal with |- (if ?b then _ else _) = _ => change b with false end; cbv iota).
    match goal with |- (if ?b then _ else _) = _ => change b with true end. cbv iota. step.
    erewrite bind_some; [| apply read_temporality_ok]. cbn [app]. step. step. step.
    erewrite bind_some; [| apply (all_items_ok []); [intros; apply read_hpoint_ok | reflexivity | reflexivity |]].
    + reflexivity.
    + intros t' I. apply C. destruct I as [<- | []]. left. reflexivity.
  - reflexivity.
Qed.
End number.

Lemma read_metric_ok i m rest : clear point_labels rest -> read_metric i (print_metric i m ++ rest) = Some (seen_metric m, rest).
Proof.
  intro C. unfold read_metric, print_metric. rewrite <- !app_assoc. cbn [app]. do 4 step. unfold seen_metric.
  destruct (me_data m) as [d | d | d]; (erewrite bind_some; [| apply read_info_ok; [reflexivity | exact C]]); reflexivity.
Qed.

Definition metric_labels : list string := "Metric #{}" :: point_labels ++ scope_labels.

Lemma read_scope_metrics_ok i g rest : clear metric_labels rest ->
  read_scope_metrics i (print_scope_metrics i g ++ rest) = Some ((fst g, map seen_metric (snd g)), rest).
Proof.
  intro C. unfold read_scope_metrics, print_scope_metrics. rewrite <- !app_assoc. cbn [app]. step.
  erewrite bind_some; [| apply read_scope_ok].
  - erewrite bind_some; [| apply (all_items_ok point_labels); [apply read_metric_ok | reflexivity | reflexivity |]]; [reflexivity |].
    intros t I. apply C. cbn in I |- *. tauto.
  - intros t I. change (numbered print_metric (snd g)) with (numbered_from 0 print_metric (snd g)).
    apply (at_numbered t "Metric #{}"); [reflexivity | | apply C; cbn in I |- *; tauto].
    cbn in I. repeat destruct I as [<- | I]; try contradiction; reflexivity.
Qed.

Lemma read_metrics_ok l rest : clear ("	Instrumentation Scope #{}" :: metric_labels) rest ->
  read_metrics (print_metrics l ++ rest) = Some (map (fun g => (fst g, map seen_metric (snd g))) l, rest).
Proof. intro C. apply (all_items_ok metric_labels); [apply read_scope_metrics_ok | reflexivity | reflexivity | exact C]. Qed.

Lemma read_resource_ok r rest : clear ["	Resource SchemaUrl: {:?}"; "	 ->  {}={:?}"] rest -> read_resource (print_resource r ++ rest) = Some (r, rest).
Proof.
  intro C. unfold read_resource, print_resource. rewrite <- !app_assoc. cbn [app]. step.
  erewrite bind_some; [| apply (optional_ok _ _ _ (fun x => x)); [reflexivity | reflexivity | lab]].
  erewrite bind_some; [| apply (lines_ok _ _ _ (fun x => x)); [reflexivity | reflexivity | lab]].
  rewrite opt_id, map_id. destruct r. reflexivity.
Qed.
